(** Executions of threads are linearizable. *)
From Coq Require Import List Arith ZArith NArith Lia Bool.
From Verif Require Import Base Sv Info Registry TypeMut Rules TypeBuild TypeQuery Domain ElemProofs TypesProofs SpecDom DomTheorems Conc SpecConc CongProofs.
Import ListNotations.

Section ConcProofs.
Variable E : env.

Ltac gtnames fq ask ne ft bt :=
  try match goal with H : find_query _ _ = _ |- _ => rename H into fq end;
  try match goal with H : asked _ _ _ _ = _ |- _ => rename H into ask end;
  try match goal with H : _ <> @nil _ |- _ => rename H into ne end;
  try match goal with H : find_type _ _ _ = _ |- _ => rename H into ft end;
  try match goal with H : build_type _ _ _ _ _ _ _ = _ |- _ => rename H into bt end.
Ltac gtinv C := inversion C; subst; gtnames ident:(Hfq) ident:(Hask) ident:(Hmne) ident:(Hft) ident:(Hbt).

Lemma run_trans w0 tr w : run E w0 tr w -> forall w' tr0, run E w' tr0 w0 -> run E w' (tr0 ++ tr) w.
Proof.
  induction 1 as [w|w tr w1 o r w2 R IH S U]; intros w' tr0 R0; [now rewrite app_nil_r|].
  rewrite app_assoc. eapply run_snoc; [apply IH; exact R0|exact S|exact U].
Qed.
Lemma reach_run w0 tr w : reachable E w0 -> run E w0 tr w -> reachable E w.
Proof. intros [tr0 R0] R. exists (tr0 ++ tr). eapply run_trans; eauto. Qed.

Lemma seen_app a b : seen (a ++ b) = seen a ++ seen b.
Proof. induction a as [|[] a IH]; cbn; congruence. Qed.
Lemma effects_app a b : effects (a ++ b) = effects a ++ effects b.
Proof. induction a as [|[] a IH]; cbn; congruence. Qed.

(** A type with given mixins *)
Definition typed (w : world) (d : dptr) (r : tref) (ms : list mptr) : Prop := exists t, has_type w d r t /\ t_mixins t = ms.
Definition pending (w : world) (d : dptr) (q ms : list mptr) : Prop :=
  asked E w d q = Ok (q, ms) /\ forall r, find_query q (d_queries (w_dom w d)) = Some r -> typed w d r ms.

Lemma typed_unique w d r r' ms : reachable E w -> typed w d r ms -> typed w d r' ms -> r = r'.
Proof. intros R (t & T & M) (t' & T' & M'). apply (has_type_unique E w d r r' t t' R T T'). congruence. Qed.

Definition calm (o : dop) : Prop :=
  match o with
  | DGetType _ _ _ | DGetTypeMut _ _ _ _ | DNewObj _ | DDelObj _ | DRegTc _ _ | DUnregTc _ _ => True
  | _ => False
  end.

Record calmly (w w' : world) : Prop := {
  cl_mid : w_mid w' = w_mid w; cl_mdom : w_mdom w' = w_mdom w; cl_fid : w_fid w' = w_fid w;
  cl_regs : forall d, d_mixins (w_dom w' d) = d_mixins (w_dom w d) /\ d_rules (w_dom w' d) = d_rules (w_dom w d);
  cl_types : forall d r ms, typed w d r ms -> typed w' d r ms;
  cl_new : forall d q r, find_query q (d_queries (w_dom w' d)) = Some r ->
     find_query q (d_queries (w_dom w d)) = Some r \/ exists ms, asked E w d q = Ok (q, ms) /\ typed w' d r ms
}.

Lemma calmly_refl w : calmly w w.
Proof. constructor; auto. Qed.

Lemma calmly_pending w w' d q ms : calmly w w' -> pending w d q ms -> pending w' d q ms.
Proof.
  intros C [A B]. split.
  - rewrite <- A. apply asked_regs; [apply (cl_mid _ _ C)|apply (cl_regs _ _ C)|now rewrite (proj2 (cl_regs _ _ C d))].
  - intros r F. destruct (cl_new _ _ C d q r F) as [F0|(ms' & A' & T)]; [apply (cl_types _ _ C); auto|].
    rewrite A in A'. injection A' as <-. exact T.
Qed.

Lemma has_type_typed w d r t : has_type w d r t -> typed w d r (t_mixins t).
Proof. intros H. now exists t. Qed.

Lemma calmly_with_type w r t n : w_type w r = Some t -> calmly w (with_type w r (set_nobj t n)).
Proof.
  intros T. constructor; auto.
  intros d r2 ms (t2 & [T2 I2] & M). destruct (tref_eqb_spec r2 r) as [->|N].
  - exists (set_nobj t n). rewrite T in T2. injection T2 as <-. split; [split|exact M]; [|exact I2].
    unfold with_type, tupd. cbn. destruct (tref_eqb_spec r r); congruence.
  - exists t2. split; [split|exact M]; [|exact I2]. unfold with_type, tupd. cbn. destruct (tref_eqb_spec r2 r); congruence.
Qed.

Lemma calmly_tcs w d l : calmly w (set_dom w d (with_tcs (w_dom w d) l)).
Proof.
  assert (Q : forall d2, let s := w_dom (set_dom w d (with_tcs (w_dom w d) l)) d2 in
     d_mixins s = d_mixins (w_dom w d2) /\ d_rules s = d_rules (w_dom w d2) /\ d_types s = d_types (w_dom w d2) /\ d_queries s = d_queries (w_dom w d2)).
  { intros d2. unfold set_dom, upd. cbn. destruct (Nat.eqb_spec d2 d); [subst|]; auto. }
  constructor; auto.
  - intros d2. destruct (Q d2) as (A & B & _). auto.
  - intros d2 r ms (t & [T I] & M). exists t. split; [split|exact M]; [exact T|]. destruct (Q d2) as (_ & _ & X & _). now rewrite X.
  - intros d2 q r F. left. destruct (Q d2) as (_ & _ & _ & X). now rewrite <- X.
Qed.

Lemma calmly_get_type a w d q w' r : reachable E w -> get_type E a w d q = (w', r) -> calmly w w'.
Proof.
  intros R G. pose proof (get_type_case E a w d q) as C. rewrite G in C.
  assert (KS : forall r ms, find_query q (d_queries (w_dom w d)) = None -> asked E w d q = Ok (q, ms) -> typed w d r ms -> calmly w (store_found w d q r)).
  { intros r0 ms F A T.
    assert (QQ : forall d2, let s := w_dom (store_found w d q r0) d2 in
      d_mixins s = d_mixins (w_dom w d2) /\ d_rules s = d_rules (w_dom w d2) /\ d_types s = d_types (w_dom w d2) /\
      d_queries s = if d2 =? d then store_query q r0 (d_queries (w_dom w d2)) else d_queries (w_dom w d2)).
    { intros d2. unfold store_found, set_dom, upd. cbn. destruct (Nat.eqb_spec d2 d); [subst|]; auto. }
    assert (TT : forall d2 r2 ms2, typed w d2 r2 ms2 -> typed (store_found w d q r0) d2 r2 ms2).
    { intros d2 r2 ms2 (t2 & [T2 I2] & M2). exists t2. split; [split|exact M2]; [exact T2|]. destruct (QQ d2) as (_ & _ & X & _). now rewrite X. }
    constructor; auto.
    - intros d2. destruct (QQ d2) as (X & Y & _). auto.
    - intros d2 q2 r2 F2. destruct (QQ d2) as (_ & _ & _ & X). rewrite X in F2. destruct (Nat.eqb_spec d2 d) as [->|N]; [|auto].
      rewrite find_query_store in F2. destruct (span_equiv_spec q q2) as [->|N]; [|auto]. injection F2 as <-. right. exists ms. auto. }
  gtinv C; try apply calmly_refl.
  - apply (KS _ []); auto. destruct (winv_reachable E w R) as [_ T]. destruct (ti_empty _ _ T d) as [k HT]. exists (set_nobj (empty_type d) k). split; [split; auto|reflexivity].
  - eapply KS; eauto. apply find_type_some in Hft. destruct Hft as (I & t & T & M). exists t. split; [split; auto|exact M].
  - destruct (winv_reachable E w R) as [_ TI]. pose proof (tinv_fresh E w _ TI (le_n (w_next w))) as FR.
    assert (KT : forall d2 r2 ms2, typed w d2 r2 ms2 -> typed (fst (get_type E a w d q)) d2 r2 ms2).
    { intros d2 r2 ms2 (t2 & T2 & M2). exists t2. split; [|exact M2]. eapply get_type_keeps; eauto. now rewrite G. }
    rewrite G in KT. cbn [fst] in KT. constructor; cbn [w_mid w_mdom w_fid w_dom]; auto.
    + intros d2. unfold upd. destruct (Nat.eqb_spec d2 d); [subst|]; auto.
    + intros d2 q2 r2 F2. unfold upd in F2. destruct (Nat.eqb_spec d2 d) as [->|N]; [|auto]. cbn [d_queries with_types] in F2.
      rewrite find_query_store in F2. destruct (span_equiv_spec q q2) as [->|N]; [|auto]. injection F2 as <-. right. exists ms. split; [exact Hask|].
      exists t. destruct (build_type_ok E _ _ _ _ _ _ _ Hbt) as (M & _). split; [split|exact M].
      * cbn. unfold tupd. destruct (tref_eqb_spec (TReg (w_next w)) (TReg (w_next w))); congruence.
      * right. cbn. unfold upd. rewrite Nat.eqb_refl. cbn. apply in_or_app. right. now left.
Qed.

Lemma calm_step w o w' r : reachable E w -> calm o -> dstep E w o = (w', r) -> calmly w w'.
Proof.
  intros R C S. destruct o; try contradiction; cbn [dstep] in S.
  - unfold register_type_class in S. destruct (register_tc _ _ _); injection S as <- <-; try apply calmly_refl. apply calmly_tcs.
  - injection S as <- <-. apply calmly_tcs.
  - unfold retty in S. destruct (get_type E alloc_ok w d q) as [w1 x] eqn:G. injection S as <- <-. eapply calmly_get_type; eauto.
  - unfold retty in S. destruct (get_type_mut E alloc_ok w d dm q) as [w1 x] eqn:G. injection S as <- <-. cbn [fst].
    unfold get_type_mut in G. destruct (Nat.eqb_spec dm d) as [->|N]; cbn [negb] in G; [|injection G as <- <-; apply calmly_refl].
    apply (calmly_get_type alloc_ok w d q w1 x R). rewrite <- get_type_mut_same. unfold get_type_mut. rewrite Nat.eqb_refl. exact G.
  - unfold incr_nobj in S. destruct (w_type w r0) eqn:T; injection S as <- <-; [now apply calmly_with_type|apply calmly_refl].
  - unfold decr_nobj in S. destruct (w_type w r0) as [t|] eqn:T; [|injection S as <- <-; apply calmly_refl].
    destruct (t_nobj t); injection S as <- <-; [apply calmly_refl|now apply calmly_with_type].
Qed.

(** ** What a thread relies on *)
Definition getq (o : dop) (d : dptr) (q : list mptr) (a : bool) : Prop := o = DGetType d q a \/ o = DGetTypeMut d d q a.

Inductive tok (w : world) : option pos -> phase -> Prop :=
| tk_none : tok w None Idle
| tk_atomic o : (forall d m, o <> DUnregMixin d m) -> tok w (Some (PAtomic o)) (Called o)
| tk_first d q a : tok w (Some (PFirst d q a)) (Called (DGetType d q a))
| tk_shared d q a o : getq o d q a -> tok w (Some (PShared d q a)) (Called o)
| tk_store d q t o a ms : getq o d q a -> pending w d q ms -> typed w d t ms -> tok w (Some (PStore d q t)) (Called o)
| tk_build d q ms a o : getq o d q a -> pending w d q ms -> ms <> [] ->
    (forall e, build_type E (w_fid w) (w_mid w) (w_mdom w) a d ms <> Throw e) -> tok w (Some (PBuild d q ms a)) (Called o)
| tk_thrown d q ms a e : build_type E (w_fid w) (w_mid w) (w_mdom w) a d ms = Throw e -> tok w (Some (PBuild d q ms a)) (Did (Throw e))
| tk_insert d q t o a ms : getq o d q a -> pending w d q ms -> ms <> [] ->
    build_type E (w_fid w) (w_mid w) (w_mdom w) a d ms = Ok t -> tok w (Some (PInsert d q t)) (Called o)
| tk_purge d m : tok w (Some (PPurge d m)) (Called (DUnregMixin d m))
| tk_unreg d m : tok w (Some (PUnreg d m)) (Called (DUnregMixin d m))
| tk_done r : tok w (Some (PDone r)) (Did r).

Lemma tok_calm w w' x ph : calmly w w' -> tok w x ph -> tok w' x ph.
Proof.
  intros C T. pose proof (cl_mid _ _ C) as C1. pose proof (cl_mdom _ _ C) as C2. pose proof (cl_fid _ _ C) as C3.
  destruct T; try (econstructor; eauto; fail).
  - apply tk_store with a ms; auto; [now apply (calmly_pending w)|now apply (cl_types _ _ C)].
  - apply tk_build; auto; [now apply (calmly_pending w)|now rewrite C1, C2, C3].
  - apply tk_thrown. now rewrite C1, C2, C3.
  - apply tk_insert with a ms; auto; [now apply (calmly_pending w)|now rewrite C1, C2, C3].
Qed.
Lemma tok_nomid w w' x ph : (forall p, x = Some p -> ~ mid_call p) -> tok w x ph -> tok w' x ph.
Proof. intros N T. destruct T; try (econstructor; eauto; fail); exfalso; eapply N; cbn; eauto; exact I. Qed.

Lemma tok_rules w d rules qs x ph : (forall p, x = Some p -> ~ in_get_type d p) -> tok w x ph -> tok (set_dom w d (with_rules (w_dom w d) rules qs)) x ph.
Proof.
  intros N T.
  assert (K : forall d2, d2 <> d -> w_dom (set_dom w d (with_rules (w_dom w d) rules qs)) d2 = w_dom w d2).
  { intros d2 ND. unfold set_dom, upd. cbn. destruct (Nat.eqb_spec d2 d); congruence. }
  assert (TY : forall d2 r ms, d2 <> d -> typed w d2 r ms -> typed (set_dom w d (with_rules (w_dom w d) rules qs)) d2 r ms).
  { intros d2 r ms ND (t & [A B] & M). exists t. split; [split|exact M]; [exact A|]. now rewrite K. }
  assert (PE : forall d2 q ms, d2 <> d -> pending w d2 q ms -> pending (set_dom w d (with_rules (w_dom w d) rules qs)) d2 q ms).
  { intros d2 q ms ND [A B]. split.
    - rewrite <- A. apply asked_regs; [reflexivity| |]; now rewrite K.
    - intros r F. rewrite K in F by exact ND. apply TY; auto. }
  destruct T; try (econstructor; eauto; fail); assert (ND : d0 <> d) by (intros ->; eapply N; cbn; eauto; reflexivity).
  - apply tk_store with a ms; auto.
  - apply tk_build; auto.
  - apply tk_insert with a ms; auto.
Qed.

Lemma gc_effect w d w' x : reachable E w -> gc w d = (w', x) ->
  w_mid w' = w_mid w /\ w_mdom w' = w_mdom w /\ w_fid w' = w_fid w /\
  (forall d2, d_mixins (w_dom w' d2) = d_mixins (w_dom w d2) /\ d_rules (w_dom w' d2) = d_rules (w_dom w d2)) /\
  (forall d2 r ms, typed w d2 r ms -> d2 <> d \/ r = TEmpty d \/ ref_nobj w r <> 0 -> typed w' d2 r ms) /\
  (forall d2 q r, find_query q (d_queries (w_dom w' d2)) = Some r -> find_query q (d_queries (w_dom w d2)) = Some r /\ (d2 <> d \/ r = TEmpty d \/ ref_nobj w r <> 0)).
Proof.
  intros R G. destruct (c17 E w d w' x R G) as (_ & _ & C1 & C2 & C3 & C4 & _ & C5 & C6 & C7 & C8 & C9).
  destruct (winv_reachable E w R) as [_ TI].
  assert (REG : forall d2, d_mixins (w_dom w' d2) = d_mixins (w_dom w d2)).
  { intros d2. unfold gc in G. destruct (existsb _ _); injection G as <- <-; [reflexivity|]. cbn. unfold upd. destruct (Nat.eqb_spec d2 d); [now subst|reflexivity]. }
  repeat (split; [assumption|]). split; [intros d2; split; [apply REG|apply C6]|]. split.
  - intros d2 r ms (t & [T [->|I]] & M) K.
    + exists t. split; [split|exact M]; [now rewrite C9|now left].
    + exists t. destruct (Nat.eq_dec d2 d) as [->|N].
      * destruct K as [K|[->|K]]; [congruence| |].
        -- exfalso. destruct (ti_types _ _ TI d _ I) as (n & t' & X & _). discriminate X.
        -- specialize (C1 r t I T). rewrite (ref_nobj_some _ _ _ T) in K. destruct (Nat.eqb_spec (t_nobj t) 0); [congruence|]. split; [split; [apply C1|right; apply C1]|exact M].
      * split; [split|exact M]; [rewrite (C8 d2 r N I); exact T|right]. destruct (C7 d2 N) as [-> _]. exact I.
  - intros d2 q r F. destruct (Nat.eq_dec d2 d) as [->|N].
    + apply find_query_some in F. apply C2 in F. destruct F as [F K]. split; [apply find_query_in; [apply (ti_keys _ _ TI)|exact F]|]. right.
      destruct K as [K|(t & T & K)]; [now left|right]. now rewrite (ref_nobj_some _ _ _ T).
    + destruct (C7 d2 N) as [_ X]. rewrite X in F. auto.
Qed.

Lemma tok_gc w d w' y x ph : reachable E w -> gc w d = (w', y) ->
  (forall q t, x = Some (PStore d q t) -> t = TEmpty d \/ ref_nobj w t <> 0) -> tok w x ph -> tok w' x ph.
Proof.
  intros R G N T. destruct (gc_effect w d w' y R G) as (A1 & A2 & A3 & A4 & A5 & A6).
  assert (PE : forall d2 q ms, pending w d2 q ms -> pending w' d2 q ms).
  { intros d2 q ms [A B]. split.
    - rewrite <- A. apply asked_regs; [exact A1|apply A4|now rewrite (proj2 (A4 d2))].
    - intros r F. apply A6 in F. destruct F as [F K]. apply A5; auto. }
  destruct T; try (econstructor; eauto; fail).
  - apply tk_store with a ms; auto. apply A5; [assumption|]. destruct (Nat.eq_dec d0 d) as [->|ND]; [right; eapply N; reflexivity|now left].
  - apply tk_build; auto. now rewrite A1, A2, A3.
  - apply tk_thrown. now rewrite A1, A2, A3.
  - apply tk_insert with a ms; auto. now rewrite A1, A2, A3.
Qed.

(** ** The steps of get_type *)
Lemma getq_step o d q a w w' r : getq o d q a -> get_type E a w d q = (w', r) -> dstep E w o = retty (w', r) /\ calm o.
Proof.
  intros [-> | ->] G; cbn [dstep calm]; [rewrite G; auto|]. rewrite get_type_mut_same, G. auto.
Qed.

Lemma store_same w d q t : find_query q (d_queries (w_dom w d)) = Some t -> same_world w (store_found w d q t).
Proof.
  intros F. unfold store_found, set_dom, same_world. cbn. repeat split. intros d2. unfold upd. destruct (Nat.eqb_spec d2 d) as [->|N]; [|reflexivity].
  assert (K : store_query q t (d_queries (w_dom w d)) = d_queries (w_dom w d)).
  { revert F. generalize (d_queries (w_dom w d)). intros l. induction l as [|[k x] l IH]; cbn; [discriminate|].
    destruct (span_equiv k q); [congruence|]. intros F. now rewrite IH. }
  rewrite K. now destruct (w_dom w d).
Qed.

Lemma seq_store a w d q ms t : reachable E w -> pending w d q ms -> typed w d t ms ->
  exists w', get_type E a w d q = (w', Ok t) /\ same_world w' (store_found w d q t).
Proof.
  intros R [A P] T. pose proof (get_type_case E a w d q) as C. destruct (get_type E a w d q) as [w' r] eqn:G.
  exists w'. gtinv C; try (rewrite A in Hask; try discriminate; injection Hask as Hask; subst).
  - pose proof (typed_unique w' d t0 t ms R (P _ Hfq) T) as K. subst t0. split; [reflexivity|]. now apply store_same.
  - assert (X : typed w d (TEmpty d) []).
    { destruct (winv_reachable E w R) as [_ TI]. destruct (ti_empty _ _ TI d) as [k HT]. exists (set_nobj (empty_type d) k). split; [split; auto|reflexivity]. }
    rewrite (typed_unique w d t (TEmpty d) [] R T X). split; [reflexivity|apply same_refl].
  - assert (X : typed w d r0 ms0). { apply find_type_some in Hft. destruct Hft as (I & t' & T' & M). exists t'. split; [split; auto|exact M]. }
    rewrite (typed_unique w d t r0 ms0 R T X). split; [reflexivity|apply same_refl].
  - exfalso. destruct T as (t' & [T' [->|I]] & M); [|eapply find_type_none; eauto].
    destruct (winv_reachable E w R) as [_ TI]. destruct (ti_empty _ _ TI d) as [k HT]. rewrite HT in T'. injection T' as <-. now apply Hmne.
  - exfalso. destruct T as (t' & [T' [->|I]] & M); [|eapply find_type_none; eauto].
    destruct (winv_reachable E w' R) as [_ TI]. destruct (ti_empty _ _ TI d) as [k HT]. rewrite HT in T'. injection T' as <-. now apply Hmne.
  - exfalso. destruct T as (t' & [T' [->|I]] & M); [|eapply find_type_none; eauto].
    destruct (winv_reachable E w' R) as [_ TI]. destruct (ti_empty _ _ TI d) as [k HT]. rewrite HT in T'. injection T' as <-. now apply Hmne.
Qed.

Lemma typed_find w d r ms : reachable E w -> ms <> [] -> typed w d r ms -> find_type w ms (d_types (w_dom w d)) = Some r.
Proof.
  intros R N T. destruct (find_type w ms (d_types (w_dom w d))) as [r'|] eqn:F.
  - f_equal. apply (typed_unique w d r' r ms R); [|exact T]. apply find_type_some in F. destruct F as (I & t' & T' & M). exists t'. split; [split; auto|exact M].
  - exfalso. destruct T as (t' & [T' [->|I]] & M); [|eapply find_type_none; eauto].
    destruct (winv_reachable E w R) as [_ TI]. destruct (ti_empty _ _ TI d) as [k HT]. rewrite HT in T'. injection T' as <-. now apply N.
Qed.

Lemma seq_insert a w d q ms t : reachable E w -> pending w d q ms -> ms <> [] -> build_type E (w_fid w) (w_mid w) (w_mdom w) a d ms = Ok t ->
  exists w', get_type E a w d q = (w', Ok (snd (insert_type w d q t))) /\ same_world w' (fst (insert_type w d q t)).
Proof.
  intros R [A P] N B. pose proof (get_type_case E a w d q) as C. destruct (get_type E a w d q) as [w' r] eqn:G.
  destruct (build_type_ok E _ _ _ _ _ _ _ B) as (M & _). unfold insert_type. rewrite M. clear M.
  exists w'. gtinv C; try (rewrite A in Hask; try discriminate; injection Hask as Hask; subst).
  - rewrite (typed_find w' d t0 ms R Hmne (P _ Hfq)). split; [reflexivity|]. now apply store_same.
  - exfalso. now apply Hmne.
  - rewrite Hft. split; [reflexivity|apply same_refl].
  - rewrite Hft, Hbt in *. injection B as ->. split; [reflexivity|]. cbn. repeat split.
  - congruence.
  - congruence.
Qed.

(** ** The simulation *)
Definition W (ws : world) (s : cst) : Prop :=
  (forall i d m, c_th s i = Some (PUnreg d m) ->
     (exists w1, purge_types ws d m = Ok w1 /\ same_world w1 (c_w s)) /\ (forall j pj, j <> i -> c_th s j = Some pj -> ~ mid_call pj)) /\
  (not_unregistering s -> same_world ws (c_w s)).

Definition Sim (w0 : world) (h : list hev) (s : cst) : Prop :=
  exists g p ws, one_by_one g p /\ seen g = h /\ run E w0 (effects g) ws /\ W ws s /\ forall i, tok ws (c_th s i) (p i).

Lemma set_th_same f i x : set_th f i x i = x.
Proof. unfold set_th. now rewrite Nat.eqb_refl. Qed.
Lemma set_th_other f i x j : j <> i -> set_th f i x j = f j.
Proof. intros N. unfold set_th. destruct (Nat.eqb_spec j i); congruence. Qed.
Lemma set_phase_same f i x : set_phase f i x i = x.
Proof. unfold set_phase. now rewrite Nat.eqb_refl. Qed.
Lemma set_phase_other f i x j : j <> i -> set_phase f i x j = f j.
Proof. intros N. unfold set_phase. destruct (Nat.eqb_spec j i); congruence. Qed.

(** The effect of a call at a step that ends its reliance *)
Lemma sim_do w0 h g p ws s i pi o ws' r w' p' :
  reachable E w0 -> one_by_one g p -> seen g = h -> run E w0 (effects g) ws -> (forall j, tok ws (c_th s j) (p j)) ->
  c_th s i = Some pi -> p i = Called o -> dstep E ws o = (ws', r) -> ~ is_ub r -> same_world ws' w' ->
  (forall j d m, j <> i -> c_th s j <> Some (PUnreg d m)) ->
  (forall j, j <> i -> tok ws (c_th s j) (p j) -> tok ws' (c_th s j) (p j)) ->
  tok ws' (Some p') (Did r) -> Sim w0 h {| c_w := w'; c_th := set_th (c_th s) i (Some p') |}.
Proof.
  intros R0 O S R T HI P D U SW NU CM TK. pose proof (reach_run _ _ _ R0 R) as RW.
  exists (g ++ [GDo i o r]), (set_phase p i (Did r)), ws'. split; [now apply ob_do|]. split; [rewrite seen_app; cbn; now rewrite app_nil_r|].
  split; [rewrite effects_app; cbn; eapply run_snoc; eauto|]. split.
  - split; cbn; [|intros _; exact SW]. intros j d m Hj. exfalso. destruct (Nat.eq_dec j i) as [->|N].
    + rewrite set_th_same in Hj. injection Hj as ->. inversion TK.
    + rewrite set_th_other in Hj by exact N. eapply NU; eauto.
  - intros j. cbn [c_th]. destruct (Nat.eq_dec j i) as [->|N]; [now rewrite set_th_same, set_phase_same|].
    rewrite set_th_other, set_phase_other by exact N. apply CM; auto.
Qed.

Lemma sim_calm w0 h g p ws s i pi o ws' r w' p' :
  reachable E w0 -> one_by_one g p -> seen g = h -> run E w0 (effects g) ws -> (forall j, tok ws (c_th s j) (p j)) ->
  c_th s i = Some pi -> p i = Called o -> dstep E ws o = (ws', r) -> ~ is_ub r -> same_world ws' w' ->
  (forall j d m, j <> i -> c_th s j <> Some (PUnreg d m)) -> calm o ->
  tok ws' (Some p') (Did r) -> Sim w0 h {| c_w := w'; c_th := set_th (c_th s) i (Some p') |}.
Proof.
  intros R0 O S R T HI P D U SW NU CA TK. apply sim_do with g p ws pi o ws' r; auto.
  intros j _ TJ. eapply tok_calm; [|exact TJ]. eapply calm_step; eauto. exact (reach_run _ _ _ R0 R).
Qed.

(** A step without effect *)
Lemma sim_skip w0 h g p ws s i p' :
  one_by_one g p -> seen g = h -> run E w0 (effects g) ws -> (forall j, tok ws (c_th s j) (p j)) -> same_world ws (c_w s) ->
  (forall j d m, j <> i -> c_th s j <> Some (PUnreg d m)) -> (forall d m, p' <> PUnreg d m) ->
  tok ws (Some p') (p i) -> Sim w0 h {| c_w := c_w s; c_th := set_th (c_th s) i (Some p') |}.
Proof.
  intros O S R T SW NU NP TK. exists g, p, ws. repeat (split; [assumption|]). split.
  - split; cbn; [|intros _; exact SW]. intros j d m Hj. exfalso. destruct (Nat.eq_dec j i) as [->|N].
    + rewrite set_th_same in Hj. injection Hj as ->. now eapply NP.
    + rewrite set_th_other in Hj by exact N. eapply NU; eauto.
  - intros j. cbn [c_th]. destruct (Nat.eq_dec j i) as [->|N]; [now rewrite set_th_same|]. rewrite set_th_other by exact N. apply T.
Qed.

Lemma lookup_case w d q r : lookup_type E w d q = r ->
  (exists t, r = Ok (LStored t) /\ find_query q (d_queries (w_dom w d)) = Some t) \/
  (find_query q (d_queries (w_dom w d)) = None /\
    ((exists ms f, r = Ok (LNew q ms f) /\ asked E w d q = Ok (q, ms) /\ f = match ms with [] => Some (TEmpty d) | _ => find_type w ms (d_types (w_dom w d)) end) \/
     (exists e, r = Throw e) \/ (exists u, r = Ub u))).
Proof.
  unfold lookup_type. destruct (find_query q (d_queries (w_dom w d))) as [t|] eqn:F; intros <-; [left; eauto|]. right. split; [reflexivity|].
  unfold asked. destruct (apply_rules E (view E w d) (d_rules (w_dom w d)) q) as [[oq ms]|e|u] eqn:A; cbn [bind fst snd]; [|right; eauto..].
  left. pose proof (apply_rules_query E _ _ _ _ _ A) as ->. eexists ms, _. split; [reflexivity|]. split; reflexivity.
Qed.

Lemma sim_step w0 h s i p w' p' : reachable E w0 -> Sim w0 h s -> c_th s i = Some p -> quiet s i p -> section E (c_w s) p = (w', p') ->
  (forall u, p' <> PDone (Ub u)) -> Sim w0 h {| c_w := w'; c_th := set_th (c_th s) i (Some p') |}.
Proof.
  intros R0 (g & ph & ws & O & S & R & [WU WS] & T) HI Q X NUB. pose proof (reach_run _ _ _ R0 R) as RW.
  assert (NU : forall j d m, j <> i -> c_th s j <> Some (PUnreg d m)).
  { intros j d m N Hj. destruct (Q j _ N Hj) as [_ K]. now apply (K d m). }
  assert (SW : (forall d m, p <> PUnreg d m) -> same_world ws (c_w s)).
  { intros NP. apply WS. intros j d m Hj. destruct (Nat.eq_dec j i) as [->|N]; [|now apply (NU j d m)].
    rewrite HI in Hj. injection Hj as ->. now apply (NP d m). }
  assert (NA : forall j pj, j <> i -> c_th s j = Some pj -> ~ affects (c_w s) p pj).
  { intros j pj N Hj. now destruct (Q j _ N Hj). }
  pose proof (T i) as TI. rewrite HI in TI.
  assert (LOOK : forall d q, (forall d m, p <> PUnreg d m) -> lookup_type E (c_w s) d q = lookup_type E ws d q).
  { intros d q NP. apply same_lookup. auto. }
  remember (Some p) as sp eqn:EP in TI. remember (ph i) as pi eqn:EPH.
  destruct TI; try discriminate EP; injection EP as <-; symmetry in EPH; cbn [section] in X.
  - (* PAtomic *) destruct (dstep E (c_w s) o) as [w1 r] eqn:D. injection X as <- <-.
    destruct (same_dstep E ws (c_w s) o (SW ltac:(discriminate))) as [S1 S2]. destruct (dstep E ws o) as [ws' r'] eqn:D'. rewrite D in S1, S2. cbn [fst snd] in *. subst r'.
    apply sim_do with g ph ws (PAtomic o) o ws' r; auto; [intros K; destruct r; try contradiction; eapply NUB; reflexivity| |apply tk_done].
    intros j NJ TJ. specialize (NA j). clear D.
    assert (CA : calm o -> tok ws' (c_th s j) (ph j)) by (intros CA; eapply tok_calm; [eapply calm_step; eauto|exact TJ]).
    destruct o; try (apply CA; exact I); clear CA; try (exfalso; eapply H; reflexivity); try (eapply tok_nomid; [|exact TJ]; intros pj Hj; exact (NA pj NJ Hj)).
    + cbn [dstep] in D'. unfold add_rule in D'. destruct (r_apply _); [|injection D' as <- <-; exact TJ].
      destruct (rules_incr _ _ _) as [l b]. injection D' as <- <-. apply tok_rules; [|exact TJ]. intros pj Hj. exact (NA pj NJ Hj).
    + cbn [dstep] in D'. unfold remove_rule in D'. destruct (rules_decr _ _ _) as [[l b]|e|u]; injection D' as <- <-; try exact TJ.
      apply tok_rules; [|exact TJ]. intros pj Hj. exact (NA pj NJ Hj).
    + cbn [dstep] in D'. destruct (gc ws d) as [w2 x] eqn:G. injection D' as <- <-. apply (tok_gc ws d w2 x _ _ RW G); [|exact TJ].
      intros q t Hj. destruct (tref_eqb_spec t (TEmpty d)) as [->|NT]; [now left|right]. intros Z. apply (NA _ NJ Hj). exists q, t. split; [reflexivity|]. split; [exact NT|].
      destruct (SW ltac:(discriminate)) as (_ & _ & _ & _ & WT & _). unfold ref_nobj in *. now rewrite <- WT.
  - (* PFirst *) pose proof (SW ltac:(discriminate)) as SW0.
    assert (FQ : w_dom (c_w s) d = w_dom ws d) by (symmetry; apply SW0). rewrite FQ in X.
    destruct (find_query q (d_queries (w_dom ws d))) as [t|] eqn:F; injection X as <- <-.
    + assert (G : get_type E a ws d q = (ws, Ok t)) by (unfold get_type; now rewrite F).
      apply sim_calm with g ph ws (PFirst d q a) (DGetType d q a) ws (Ok (Some t)); auto; [cbn [dstep]; now rewrite G|exact I|apply tk_done].
    + apply sim_skip with g ph ws; auto; [discriminate|]. rewrite EPH. apply tk_shared. now left.
  - (* PShared *) pose proof (SW ltac:(discriminate)) as SW0. rewrite LOOK in X by discriminate.
    destruct (lookup_case ws d q _ eq_refl) as [(t & L & F)|(F & [(ms & f & L & A & EF)|[(e & L)|(u & L)]])]; rewrite L in X.
    + injection X as <- <-. assert (G : get_type E a ws d q = (ws, Ok t)) by (unfold get_type; now rewrite F).
      destruct (getq_step o d q a ws ws (Ok t) H G) as [D CA].
      apply sim_calm with g ph ws (PShared d q a) o ws (Ok (Some t)); auto. apply tk_done.
    + assert (PE : pending ws d q ms) by (split; [exact A|intros r K; congruence]).
      destruct f as [t|]; [injection X as <- <-|].
      * apply sim_skip with g ph ws; auto; [discriminate|]. rewrite EPH. apply tk_store with a ms; auto.
        destruct ms as [|m ms]; [injection EF as ->|].
        -- destruct (winv_reachable E ws RW) as [_ TI]. destruct (ti_empty _ _ TI d) as [k HT]. exists (set_nobj (empty_type d) k). split; [split; auto|reflexivity].
        -- symmetry in EF. apply find_type_some in EF. destruct EF as (II & t' & T' & M). exists t'. split; [split; auto|exact M].
      * injection X as <- <-. assert (N : ms <> []) by (intros ->; discriminate EF).
        destruct (build_type E (w_fid ws) (w_mid ws) (w_mdom ws) a d ms) as [t|e|u] eqn:B.
        -- apply sim_skip with g ph ws; auto; [discriminate|]. rewrite EPH. apply tk_build; auto. intros e. now rewrite B.
        -- assert (G : get_type E a ws d q = (ws, Throw e)).
           { rewrite <- get_type_mut_same. unfold get_type_mut. rewrite Nat.eqb_refl. cbn [negb]. now rewrite L, B. }
           destruct (getq_step o d q a ws ws _ H G) as [D CA].
           apply sim_calm with g ph ws (PShared d q a) o ws (Throw e); auto. now apply tk_thrown.
        -- apply sim_skip with g ph ws; auto; [discriminate|]. rewrite EPH. apply tk_build; auto. intros e. now rewrite B.
    + injection X as <- <-. assert (G : get_type E a ws d q = (ws, Throw e)).
      { rewrite <- get_type_mut_same. unfold get_type_mut. rewrite Nat.eqb_refl. cbn [negb]. now rewrite L. }
      destruct (getq_step o d q a ws ws _ H G) as [D CA].
      apply sim_calm with g ph ws (PShared d q a) o ws (Throw e); auto. apply tk_done.
    + injection X as <- <-. exfalso. eapply NUB; reflexivity.
  - (* PStore *) injection X as <- <-. pose proof (SW ltac:(discriminate)) as SW0.
    destruct (seq_store a ws d q ms t RW H0 H1) as (ws' & G & SS). destruct (getq_step o d q a ws _ _ H G) as [D CA].
    apply sim_calm with g ph ws (PStore d q t) o ws' (Ok (Some t)); auto; [|apply tk_done].
    eapply same_trans; [exact SS|]. now apply same_store.
  - (* PBuild *) pose proof (SW ltac:(discriminate)) as SW0. destruct SW0 as (HA & HB & HC & HD & HF & HG). rewrite <- HA, <- HB, <- HC in X.
    destruct (build_type E (w_fid ws) (w_mid ws) (w_mdom ws) a d ms) as [t|e|u] eqn:B.
    + injection X as <- <-. apply sim_skip with g ph ws; auto; [apply SW; discriminate|discriminate|]. rewrite EPH. apply tk_insert with a ms; auto.
    + exfalso. now apply (H2 e).
    + injection X as <- <-. exfalso. eapply NUB; reflexivity.
  - (* PBuild, thrown *) pose proof (SW ltac:(discriminate)) as SW0. pose proof SW0 as (HA & HB & HC & HD & HF & HG). rewrite <- HA, <- HB, <- HC, H in X.
    injection X as <- <-. apply sim_skip with g ph ws; auto; [discriminate|]. rewrite EPH. apply tk_done.
  - (* PInsert *) pose proof (SW ltac:(discriminate)) as SW0. destruct (seq_insert a ws d q ms t RW H0 H1 H2) as (ws' & G & SS).
    destruct (same_insert ws (c_w s) d q t SW0) as [S1 S2]. destruct (insert_type (c_w s) d q t) as [w1 r] eqn:I1. injection X as <- <-.
    cbn [fst snd] in S1, S2. rewrite S2 in G. destruct (getq_step o d q a ws _ _ H G) as [D CA].
    apply sim_calm with g ph ws (PInsert d q t) o ws' (Ok (Some r)); auto; [|apply tk_done]. eapply same_trans; eauto.
  - (* PPurge *) pose proof (SW ltac:(discriminate)) as SW0. pose proof (same_purge ws (c_w s) d m SW0) as SP.
    destruct (purge_types (c_w s) d m) as [w1|e|u] eqn:P1; injection X as <- <-.
    + destruct (purge_types ws d m) as [ws1|e|u] eqn:P2; try contradiction.
      exists g, ph, ws. repeat (split; [assumption|]). split.
      * split; cbn [c_th c_w].
        -- intros j d' m' Hj. destruct (Nat.eq_dec j i) as [->|N].
           ++ rewrite set_th_same in Hj. injection Hj as <- <-. split; [exists ws1; auto|]. intros k pk NK HK. rewrite set_th_other in HK by exact NK. exact (NA k pk NK HK).
           ++ rewrite set_th_other in Hj by exact N. exfalso. now apply (NU j d' m').
        -- intros NR. exfalso. apply (NR i d m). cbn. apply set_th_same.
      * intros j. cbn [c_th]. destruct (Nat.eq_dec j i) as [->|N]; [rewrite set_th_same, EPH; apply tk_unreg|]. rewrite set_th_other by exact N. apply T.
    + exfalso. clear -P1. unfold purge_types in P1. destruct (existsb _ _); [discriminate|]. destruct (existsb _ _); discriminate.
    + exfalso. eapply NUB; reflexivity.
  - (* PUnreg *) destruct (WU i d m HI) as [(w1 & P1 & S1) NMJ].
    destruct (same_unregister_elem w1 (c_w s) d m S1) as [U1 U2].
    destruct (unregister_mixin_elem (c_w s) d m) as [w2 r] eqn:D2. cbn [fst snd] in *. destruct (unregister_mixin_elem w1 d m) as [ws' r'] eqn:D1. cbn [fst snd] in *. subst r'.
    injection X as <- <-.
    assert (D : dstep E ws (DUnregMixin d m) = (ws', snd (forget (ws', r)))).
    { cbn [dstep]. unfold unregister_mixin. rewrite P1, D1. reflexivity. }
    apply sim_do with g ph ws (PUnreg d m) (DUnregMixin d m) ws' (snd (forget (ws', r))); auto.
    + intros K. cbn in K. destruct r; try contradiction. eapply NUB. cbn. reflexivity.
    + intros j NJ TJ. eapply tok_nomid; [|exact TJ]. intros pj Hj. exact (NMJ j pj NJ Hj).
    + apply tk_done.
  - (* PDone *) injection X as <- <-. apply sim_skip with g ph ws; auto; [apply SW; discriminate|discriminate|]. rewrite EPH. apply tk_done.
Qed.

Lemma sim_run w0 h s : reachable E w0 -> crun E quiet w0 h s -> Sim w0 h s.
Proof.
  intros R0. induction 1 as [|h s i o C IH HI|h s i p w' p' C IH HI Q X NUB|h s i r C IH HI].
  - exists [], (fun _ => Idle), w0. split; [constructor|]. split; [reflexivity|]. split; [constructor|]. split; [split|].
    + intros i d m K. discriminate K.
    + intros _. apply same_refl.
    + intros i. constructor.
  - destruct IH as (g & ph & ws & O & S & R & [WU WS] & T). pose proof (T i) as TI. rewrite HI in TI. inversion TI as [EP| | | | | | | | | |]. symmetry in EP.
    assert (W0 : forall x, (forall d m, x <> PUnreg d m) -> ~ mid_call x -> W ws {| c_w := c_w s; c_th := set_th (c_th s) i (Some x) |}).
    { intros x NX MX. split; cbn [c_th c_w].
      - intros j d m Hj. destruct (Nat.eq_dec j i) as [->|N]; [rewrite set_th_same in Hj; injection Hj as ->; exfalso; now apply (NX d m)|].
        rewrite set_th_other in Hj by exact N. destruct (WU j d m Hj) as [A B]. split; [exact A|]. intros k pk NK HK.
        destruct (Nat.eq_dec k i) as [->|NK2]; [rewrite set_th_same in HK; now injection HK as <-|]. rewrite set_th_other in HK by exact NK2. eapply B; eauto.
      - intros NR. apply WS. intros j d m Hj. apply (NR j d m). cbn. rewrite set_th_other; [exact Hj|]. intros ->. congruence. }
    assert (GO : forall x, (forall d m, x <> PUnreg d m) -> ~ mid_call x -> tok ws (Some x) (Called o) -> Sim w0 (h ++ [HCall i o]) {| c_w := c_w s; c_th := set_th (c_th s) i (Some x) |}).
    { intros x NX MX TX. exists (g ++ [GCall i o]), (set_phase ph i (Called o)), ws. split; [now apply ob_call|]. split; [rewrite seen_app, S; reflexivity|].
      split; [rewrite effects_app; cbn; now rewrite app_nil_r|]. split; [now apply W0|].
      intros j. cbn [c_th]. destruct (Nat.eq_dec j i) as [->|N]; [now rewrite set_th_same, set_phase_same|]. rewrite set_th_other, set_phase_other by exact N. apply T. }
    destruct o; cbn [enter]; try (apply GO; [discriminate|auto|constructor; discriminate]; fail); try (apply GO; [discriminate|auto|constructor]; fail).
    destruct (Nat.eqb_spec dm d) as [->|N]; [apply GO; [discriminate|auto|constructor; now right]|].
    set (o := DGetTypeMut d dm q alloc_ok) in *.
    assert (D : dstep E ws o = (ws, Throw EForeignMutation)).
    { cbn. unfold get_type_mut. destruct (Nat.eqb_spec dm d); [congruence|reflexivity]. }
    exists ((g ++ [GCall i o]) ++ [GDo i o (Throw EForeignMutation)]), (set_phase (set_phase ph i (Called o)) i (Did (Throw EForeignMutation))), ws.
    split; [apply ob_do; [now apply ob_call|apply set_phase_same]|]. split; [rewrite !seen_app, S; cbn; now rewrite app_nil_r|].
    split; [rewrite !effects_app; cbn; rewrite app_nil_r; eapply run_snoc; eauto; intros []|]. split; [apply W0; [discriminate|auto]|].
    intros j. cbn [c_th]. destruct (Nat.eq_dec j i) as [->|NJ]; [rewrite set_th_same, set_phase_same; constructor|]. rewrite set_th_other, !set_phase_other by exact NJ. apply T.
  - eapply sim_step; eauto.
  - destruct IH as (g & ph & ws & O & S & R & [WU WS] & T). pose proof (T i) as TI. rewrite HI in TI. inversion TI as [| | | | | | | | | |r' E1 EP]. subst r'. symmetry in EP.
    exists (g ++ [GRet i r]), (set_phase ph i Idle), ws. split; [now apply ob_ret|]. split; [rewrite seen_app, S; reflexivity|].
    split; [rewrite effects_app; cbn; now rewrite app_nil_r|]. split.
    + split; cbn [c_th c_w].
      * intros j d m Hj. destruct (Nat.eq_dec j i) as [->|N]; [rewrite set_th_same in Hj; discriminate|]. rewrite set_th_other in Hj by exact N.
        destruct (WU j d m Hj) as [A B]. split; [exact A|]. intros k pk NK HK.
        destruct (Nat.eq_dec k i) as [->|NK2]; [rewrite set_th_same in HK; discriminate|]. rewrite set_th_other in HK by exact NK2. eapply B; eauto.
      * intros NR. apply WS. intros j d m Hj. apply (NR j d m). cbn. rewrite set_th_other; [exact Hj|]. intros ->. congruence.
    + intros j. cbn [c_th]. destruct (Nat.eq_dec j i) as [->|N]; [rewrite set_th_same, set_phase_same; constructor|]. rewrite set_th_other, set_phase_other by exact N. apply T.
Qed.

Lemma c56 w0 h s : reachable E w0 -> crun E quiet w0 h s -> not_unregistering s -> linearizable E w0 h (c_w s).
Proof.
  intros R0 C N. destruct (sim_run w0 h s R0 C) as (g & p & ws & O & S & R & [WU WS] & T). exists g, p, ws. auto.
Qed.

End ConcProofs.
