(** Traits, empty targets, piecewise mutations *)
From Coq Require Import List Arith ZArith NArith Lia Bool.
From Verif Require Import Base Sv SvProofs BaseLemmas Info TypeBuild TypeQuery Domain ElemProofs TypesProofs SpecReg SpecDom HistProofs DomTheorems SpecLayout Heap HeapProofs Mutation Object SpecObj SpecMut SpecAct
  PartProofs RollProofs AllocProofs UpdProofs FinProofs PerfProofs WorldProofs ObjProofs OpProofs PlanProofs ActProofs ActProofs2 MatchProofs ActProofs3 MutProofs MutProofs2 MutTheorems HonestProofs StableProofs ObjTheorems ObjTheorems2 ObjTheorems3 ObjTheorems4 ObjTheorems6 ObjTheorems7.
Import ListNotations.

Section OT8.
Variable E : env.
Variable U : user.
Hypothesis AM : aligned_mixins E.
Notation Inv := (Inv E).

(** ** Traits *)
Lemma traits t :
  (default_constructible E t = true <-> forall m, In m (t_mixins t) -> m_init (e_mixin E m) = true) /\
  (copy_constructible E t = true <-> forall m, In m (t_mixins t) -> m_copy_init (e_mixin E m) = true) /\
  (copy_assignable E t = true <-> forall m, In m (t_mixins t) -> m_copy_asgn (e_mixin E m) = true) /\
  (equality_comparable E t = true <-> forall m, In m (t_mixins t) -> m_equals (e_mixin E m) = true \/ m_compare (e_mixin E m) = true) /\
  (comparable E t = true <-> forall m, In m (t_mixins t) -> m_compare (e_mixin E m) = true).
Proof.
  unfold default_constructible, copy_constructible, copy_assignable, equality_comparable, comparable. rewrite !forallb_forall. split; [|split; [|split; [|split]]]; try reflexivity.
  split; intros H m Hm; specialize (H m Hm); now apply orb_true_iff.
Qed.
Lemma new_trait s o r a sl s' res t : Inv s -> typed s -> fair E s (ONew false o r a sl) -> w_type (s_w s) r = Some t -> op_run E U (ONew false o r a sl) s = (s', res) ->
  (default_constructible E t = false -> exists e, res = Throw e) /\
  (default_constructible E t = true -> res = Ok tt \/ exists l e, res = Throw e /\ did s s' l /\ blames U False s s' l e /\ (exists err, e = EUserFunc err) \/ res = Throw EBadAlloc /\ did s s' l /\ blames U False s s' l EBadAlloc).
Proof.
  intros I Ty F Ht Hr. pose proof (new_spec E U AM s o r a sl false s' res I Ty F Hr) as Hs. destruct (traits t) as (Tr & _).
  destruct (op_honest E U (ONew false o r a sl) s s' res Logic.I Hr) as (l & Hl & _ & Hh). split.
  - intros Hd. destruct res as [[]|e|u]; [exfalso|eauto|contradiction]. destruct Hs as [(l' & C)|[[=] _]]. assert (default_constructible E t = true); [|congruence]. apply Tr. intros m Hm.
    apply In_nth_error in Hm. destruct Hm as (i & Hm). destruct (cr_type _ _ _ _ _ _ _ _ _ C r eq_refl) as (t' & T').
    destruct (op_stable E U (ONew false o r a sl) s s' (Ok tt) Logic.I Hr (inv_bounded E s I)) as [G _]. destruct (goes_on s s' o r t t' G Ht T') as (n & ->).
    destruct (cr_new _ _ _ _ _ _ _ _ _ C i m) as (p & v & f & src & _ & _ & (_ & _ & H) & _); auto. exists r, (set_nobj t n). auto.
  - intros Hd. destruct res as [[]|e|u]; [auto|right|contradiction]. destruct Hs as (_ & _ & Hs). destruct e; try contradiction.
    + destruct Hs as (t' & m & Ht' & Hm & Hi). assert (t' = t) as -> by congruence. rewrite (proj1 Tr Hd m Hm) in Hi. discriminate.
    + exists l. eexists. left. split; [reflexivity|]. split; auto. split; [exact Hh|]. eauto.
    + exists l, EBadAlloc. right. split; auto.
Qed.
Lemma copy_trait s o src a s' res r t : Inv s -> typed s -> fair E s (OCopy false o src a) -> type_of s src r t -> op_run E U (OCopy false o src a) s = (s', res) ->
  (copy_constructible E t = false -> exists e, res = Throw e) /\
  (copy_constructible E t = true -> res = Ok tt \/ exists l e, res = Throw e /\ did s s' l /\ blames U False s s' l e /\ (exists err, e = EUserFunc err) \/ res = Throw EBadAlloc /\ did s s' l /\ blames U False s s' l EBadAlloc).
Proof.
  intros I Ty F T Hr. pose proof (copy_spec E U AM s o src a false s' res I Ty F Hr) as Hs. destruct (traits t) as (_ & Tr & _).
  destruct (op_honest E U (OCopy false o src a) s s' res Logic.I Hr) as (l & Hl & _ & Hh). split.
  - intros Hd. destruct res as [[]|e|u]; [exfalso|eauto|contradiction]. destruct Hs as [(l' & C)|[[=] _]]. assert (copy_constructible E t = true); [|congruence]. apply Tr. intros m Hm.
    apply In_nth_error in Hm. destruct Hm as (i & Hm). pose proof F as (Ho & Hso). assert (Hne : src <> o) by congruence. destruct (cr_types _ _ _ _ _ _ _ _ _ C src r t Hne T) as (n & T').
    assert (Hot : otype s src = Some r) by (destruct T as (y & A & B & _); unfold otype; now rewrite A). assert (Hoo : otype s' o = Some r) by (destruct (cr_obj _ _ _ _ _ _ _ _ _ C) as (x & A & B & _); unfold otype; rewrite A; congruence).
    destruct (cr_new _ _ _ _ _ _ _ _ _ C i m) as (p & v & f & sr & _ & _ & (_ & H & _) & _); auto. apply (same_mixins s' src o r _ T' Hoo). exists r, (set_nobj t n). auto.
  - intros Hd. destruct res as [[]|e|u]; [auto|right|contradiction]. destruct Hs as (_ & _ & Hs). destruct e; try contradiction.
    + destruct Hs as (m & (i & r' & t' & T' & Hm) & Hi). destruct (type_of_fun s src r t r' t' T T') as [-> ->]. rewrite (proj1 Tr Hd m (nth_error_In _ _ Hm)) in Hi. discriminate.
    + exists l. eexists. left. split; [reflexivity|]. split; auto. split; [exact Hh|]. eauto.
    + exists l, EBadAlloc. right. split; auto.
Qed.
Lemma type_has s o r t m : type_of s o r t -> (has_some s o m <-> In m (t_mixins t)).
Proof.
  intros T. split.
  - intros (i & r' & t' & T' & H). destruct (type_of_fun s o r t r' t' T T') as [-> ->]. eapply nth_error_In; eauto.
  - intros H. apply In_nth_error in H. destruct H as (i & H). exists i, r, t. auto.
Qed.
Lemma from_trait s o src unw s' res r t t0 : Inv s -> typed s -> fair E s (OCopyFrom unw o src) -> type_of s src r t -> type_of s o r t0 -> op_run E U (OCopyFrom unw o src) s = (s', res) ->
  copy_assignable E t = true -> res <> Throw EMissingFunc.
Proof.
  intros I Ty F T T0 Hr Hc ->. assert (t0 = t) as -> by (destruct T as (y & _ & _ & A), T0 as (x & _ & _ & B); congruence). pose proof (from_spec E U AM s o src unw s' _ I Ty F Hr) as [_ (m & H1 & H2)]. destruct (traits t) as (_ & _ & Tr & _).
  apply (type_has s src r t m T) in H1. rewrite (type_has s o r t m T0) in H2. destruct H2 as [[_ H2]|[H2 _]]; [rewrite (proj1 Tr Hc m H1) in H2; discriminate|contradiction].
Qed.
Lemma can_equal_trait s o r t : type_of s o r t -> (can_equal E s o <-> equality_comparable E t = true) /\ (can_compare E s o <-> comparable E t = true).
Proof.
  intros T. destruct (traits t) as (_ & _ & _ & T1 & T2). rewrite T1, T2. unfold can_equal, can_compare. split; split; intros H m Hm; apply H; now apply (type_has s o r t m T).
Qed.
Lemma compare_trait s o o' r t t' : Inv s -> typed s -> type_of s o r t -> type_of s o' r t' -> comparable E t = true -> exists z, compare E U s o o' = Ok z.
Proof.
  intros I Ty T T' Hc. assert (t' = t) as -> by (destruct T as (y & _ & _ & A), T' as (x & _ & _ & B); congruence).
  assert (Hs : with_type_set s o) by (destruct T as (x & A & B & _); exists x; split; congruence). assert (Hs' : with_type_set s o') by (destruct T' as (x & A & B & _); exists x; split; congruence).
  destruct (see E s o I Ty Hs) as (x & r1 & t1 & P & V & S). destruct (see E s o' I Ty Hs') as (x' & r2 & t2 & P' & V' & S').
  assert (r1 = r /\ t1 = t) as [-> ->] by (apply (type_of_fun s o r t r1 t1 T); exists x; destruct S; auto). assert (r2 = r /\ t2 = t) as [-> ->] by (apply (type_of_fun s o' r t r2 t2 T'); exists x'; destruct S'; auto).
  unfold compare. rewrite (bnd_ok _ _ _ _ _ (get_obj_step s o x (se_obj _ _ _ _ _ _ _ S))), (bnd_ok _ _ _ _ _ (get_obj_step s o' x' (se_obj _ _ _ _ _ _ _ S'))). destruct (o =? o'); [eexists; reflexivity|].
  rewrite (bnd_ok _ _ _ _ _ (the_type_step s x r t (se_type _ _ _ _ _ _ _ S) (se_rec _ _ _ _ _ _ _ S))), (bnd_ok _ _ _ _ _ (the_type_step s x' r t (se_type _ _ _ _ _ _ _ S') (se_rec _ _ _ _ _ _ _ S'))). cbn [fst snd].
  unfold type_compare. destruct (tref_eqb_spec r r) as [_|]; [|congruence]. unfold bnd at 1. cbn [Z.eqb negb]. rewrite (compare_loop_run E U s x x' P P' V V' _ (seen_ready _ _ _ _ _ _ _ _ _ _ _ S S')); [eexists; reflexivity|].
  intros i m Hi. apply enum_nth in Hi. destruct (traits t) as (_ & _ & _ & _ & T2). apply (proj1 T2 Hc). eapply nth_error_In; eauto.
Qed.

(** ** Empty targets *)
Lemma empty_target s op o s' r t : Inv s -> typed s -> fair E s op -> mutates op = Some (o, false) -> op_run E U op s = (s', Ok tt) -> wanted E s op r t -> t_mixins t = [] ->
  otype s' o = Some r /\ ~ is_nonempty s' o /\ (forall m, ~ has_some s' o m) /\
  exists l, did s s' l /\ (forall j m p v, holds s o j m p v -> calls m l = destruction E m p /\ allocation s' (fst p) = None) /\ (forall m, ~ has_some s o m -> calls m l = []) /\
    (forall b, owns E s o b -> allocation s' b = None) /\ (forall b, ~ owns E s o b -> allocation s' b = allocation s b) /\ (forall b, allocation s b <> None -> ~ owns E s o b -> same_block s s' b).
Proof.
  intros I Ty F Hm Hr Hw Ht. destruct (next_inv E U AM _ _ _ _ I Ty F Hr) as [I' Ty']. destruct (mutation_ok E U AM s op o s' I Ty F Hm Hr) as (r1 & t1 & n & l & H1 & H2 & M & _).
  assert (Hrt : r1 = r /\ t1 = t).
  { assert (Hc : forall aok f, changed_to E s o aok f r t -> changed_to E s o aok f r1 t1 -> r1 = r /\ t1 = t).
    { intros aok f (q & t0 & l0 & w & A1 & A2 & A3 & A4) (q' & t0' & l0' & w' & B1 & B2 & B3 & B4). destruct (type_of_fun s o q t0 q' t0' A1 B1) as [-> ->]. rewrite A2 in B2. injection B2 as ->. rewrite A3 in B3. injection B3 as -> ->. split; congruence. }
    destruct op; try discriminate; cbn in Hm; injection Hm as -> ->; cbn in Hw, H1; try (destruct Hw as [-> Hw], H1 as [-> H1]; split; congruence); eauto. }
  destruct Hrt as [-> ->]. pose proof H2 as (x & A & B & C). assert (Hot : otype s' o = Some r) by (unfold otype; now rewrite A). split; auto.
  assert (Hnone : forall m, ~ has_some s' o m). { intros m Hh. apply (type_has s' o r _ m H2) in Hh. cbn in Hh. rewrite Ht in Hh. destruct Hh. }
  assert (Hdat : o_data x = None). { destruct (o_data x) as [b|] eqn:Hb; auto. exfalso. destruct (whole_of E s' o x b I' A Hb) as (r' & t' & dd & (_ & _ & D1 & D2 & D3 & _)). assert (r' = r) as -> by congruence. assert (t' = set_nobj t n) by congruence. subst t'. cbn in D3. contradiction. }
  assert (Hown : forall b, ~ owns E s' o b) by (intros b (x' & c & A' & B' & _); congruence).
  split; [intros (x' & A' & B'); congruence|]. split; auto. exists l. split; [apply (mt_did _ _ _ _ _ _ _ _ M)|]. split; [|split; [|split; [|split]]].
  - intros j m p v H. apply (mt_gone _ _ _ _ _ _ _ _ M j m p v H). auto.
  - intros m Hn. apply (mt_quiet _ _ _ _ _ _ _ _ M); auto.
  - intros b Hb. destruct (allocation s' b) as [z|] eqn:Hz; auto. exfalso. destruct (mt_memory _ _ _ _ _ _ _ _ M b) as [[_ H]|H]; [congruence|contradiction|]. exact (Hown b H).
  - intros b Hb. destruct (allocation s b) as [z|] eqn:Hz; [rewrite <- Hz; apply (mt_frame _ _ _ _ _ _ _ _ M b); auto; congruence|].
    destruct (allocation s' b) as [z|] eqn:Hz'; auto. exfalso. destruct (mt_memory _ _ _ _ _ _ _ _ M b) as [[H _]|H]; [congruence|congruence|]. exact (Hown b H).
  - intros b Hb Hn. apply (mt_frame _ _ _ _ _ _ _ _ M b); auto.
Qed.

(** ** Piecewise mutations *)
Definition cursor (p : mst) (t : type_rec) : Prop := mu_ty (fst p) = t /\ mu_uu (fst p) <= num_mixins t /\ (mu_complete (fst p) = true -> mu_uu (fst p) = num_mixins t).
Lemma lift_mu {A} (a : M st A) p p' r : lift a p = (p', r) -> fst p' = fst p.
Proof. unfold lift. destruct (a (snd p)) as [s1 r1]. intros H. injection H as <- <-. reflexivity. Qed.
Lemma next_cursor cn uc p p' t : update_next cn uc p = (p', Ok tt) -> cursor p t ->
  cursor p' t /\ (mu_complete (fst p) = true /\ p' = p \/ mu_complete (fst p) = false /\ mu_uu (fst p) < num_mixins t /\ mu_uu (fst p') = S (mu_uu (fst p))).
Proof.
  unfold update_next. intros H (C1 & C2 & C3). destruct p as [mu s]. cbn [fst] in *. rewrite (bnd_ok _ _ _ _ _ (get_mu_step mu s)) in H. destruct (mu_complete mu) eqn:Hc.
  - injection H as <-. split; [split; auto|left; auto].
  - cbv zeta in H. unfold target_mixin in H at 1. destruct (nth_error (t_mixins (mu_ty mu)) (mu_uu mu)) as [m|] eqn:Hm; [|discriminate]. pose proof (nth_error_lt _ _ _ Hm) as Hlt.
    rewrite (bnd_ok (ret m) _ (mu, s) (mu, s) m eq_refl) in H. rewrite (bnd_ok _ _ _ _ _ (get_mid_step mu s)) in H.
    match type of H with bnd ?a ?f ?q = _ => destruct (a q) as [p1 r1] eqn:Ha; unfold bnd at 1 in H; rewrite Ha in H; destruct r1 as [[]| |]; try discriminate end.
    assert (Hp1 : fst p1 = mu).
    { clear H. destruct (old_slot mu _ m) as [[ob oi]|].
      - unfold bnd in Ha. destruct (lift (read_data ob oi) (mu, s)) as [p2 r2] eqn:H2. pose proof (lift_mu _ _ _ _ H2) as E2. destruct r2; try discriminate. apply lift_mu in Ha. cbn in *. congruence.
      - unfold target_data in Ha. destruct (mu_tdata mu) as [tb|]; [|discriminate]. rewrite (bnd_ok (ret tb) _ (mu, s) (mu, s) tb eq_refl) in Ha. unfold bnd in Ha. destruct (lift (read_data tb (mu_uu mu)) (mu, s)) as [p2 r2] eqn:H2. pose proof (lift_mu _ _ _ _ H2) as E2. destruct r2; try discriminate. apply lift_mu in Ha. cbn in *. congruence. }
    destruct p1 as [mu1 s1]. cbn in Hp1. subst mu1. unfold set_mu in H. injection H as <-. cbn [fst snd with_uu mu_uu mu_complete mu_ty]. subst t. unfold num_mixins in *. split; [|right; split; [auto|]; split; [exact Hlt|auto]]. split; auto. cbn [fst with_uu mu_uu mu_complete]. unfold num_mixins. split; [lia|]. destruct (length (t_mixins (mu_ty mu))); [discriminate|]. intros Hs. apply Nat.eqb_eq in Hs. lia.
Qed.
Lemma turns_cursor cn uc k : forall p p' t, update_turns cn uc k p = (p', Ok tt) -> cursor p t -> mu_uu (fst p) + k <= num_mixins t -> cursor p' t /\ mu_uu (fst p') = mu_uu (fst p) + k.
Proof.
  induction k as [|k IH]; intros p p' t H C Hk; cbn in H.
  - injection H as <-. split; auto.
  - unfold bnd in H. destruct (update_next cn uc p) as [p1 r1] eqn:H1. destruct r1 as [[]| |]; try discriminate. destruct (next_cursor _ _ _ _ _ H1 C) as [C1 [[Hc _]|(_ & _ & Hu)]]; [destruct C as (_ & _ & C); specialize (C Hc); lia|].
    destruct (IH p1 p' t H C1) as [C2 Hu2]; [lia|]. split; auto. lia.
Qed.
Lemma each_cursor cn uc up p p' t : update_each cn uc up p = (p', Ok tt) -> cursor p t -> cursor p' t /\ mu_uu (fst p') = Nat.max (mu_uu (fst p)) (cut t up).
Proof.
  unfold update_each. intros H C. destruct p as [mu s]. rewrite (bnd_ok _ _ _ _ _ (get_mu_step mu s)) in H. cbv zeta in H. pose proof C as (C1 & C2 & C3). cbn [fst] in *. rewrite C1 in H.
  assert (Hc : match up with Some u => if num_mixins t <? u then num_mixins t else u | None => num_mixins t end = cut t up) by (rewrite <- cut_upto; reflexivity). rewrite Hc in H.
  assert (cut t up <= num_mixins t) by (unfold cut, num_mixins; destruct up; lia). destruct (turns_cursor _ _ _ _ _ t H C) as [D1 D2]; [cbn; lia|]. cbn [fst] in D2. split; auto. lia.
Qed.
Lemma step_cursor ps p p' pl t : run_pstep E U ps p = (p', Ok tt) -> cursor p t -> is_simple t ps = true -> cursor p' t /\ (in_order t pl (mu_uu (fst p')) -> in_order t (ps :: pl) (mu_uu (fst p))).
Proof.
  intros H C Hsim. destruct p as [mu s]. pose proof C as (C1 & C2 & C3). cbn [fst] in *. destruct ps as [i k|k|k up|up| |]; cbn [run_pstep is_simple in_order] in *; try discriminate.
  - unfold update_at in H. rewrite (bnd_ok _ _ _ _ _ (get_mu_step mu s)) in H. rewrite C1 in H. unfold num_mixins in *.
    destruct (Nat.ltb_spec i (mu_uu mu)) as [Hi|Hi]; [discriminate|]. destruct (Nat.ltb_spec (length (t_mixins t)) i) as [Hn|Hn]; [discriminate|]. cbn [orb] in H.
    unfold bnd in H. destruct (default_each E U (Some i) (mu, s)) as [p1 r1] eqn:H1. destruct r1 as [[]| |]; try discriminate.
    unfold default_each, construct_each in H1. destruct (each_cursor _ _ _ _ _ t H1 C) as [D1 D2]. cbn [fst cut] in D2. rewrite (Nat.min_l i) in D2 by lia.
    destruct (next_cursor _ _ _ _ _ H D1) as [F [[Hc ->]|(_ & Hl & Hu)]]; (split; [auto|]); intros G; (split; [lia|]); unfold num_mixins in *.
    + destruct D1 as (_ & _ & D). specialize (D Hc). unfold num_mixins in D. replace (Nat.min (S i) (length (t_mixins t))) with (mu_uu (fst p1)) by lia. exact G.
    + replace (Nat.min (S i) (length (t_mixins t))) with (mu_uu (fst p')) by lia. exact G.
  - destruct (next_cursor _ _ _ _ _ H C) as [F [[Hc ->]|(_ & Hl & Hu)]]; (split; [auto|]); intros G; unfold num_mixins in *; cbn [fst] in *.
    + specialize (C3 Hc). replace (Nat.min (S (mu_uu mu)) (length (t_mixins t))) with (mu_uu mu) by lia. exact G.
    + replace (Nat.min (S (mu_uu mu)) (length (t_mixins t))) with (mu_uu (fst p')) by lia. exact G.
  - destruct (each_cursor _ _ _ _ _ t H C) as [D1 D2]. cbn [fst] in D2. rewrite D2. auto.
  - unfold default_each, construct_each in H. destruct (each_cursor _ _ _ _ _ t H C) as [D1 D2]. cbn [fst] in D2. rewrite D2. auto.
Qed.
Lemma steps_cursor ps : forall p p' t, run_psteps E U ps p = (p', Ok tt) -> cursor p t -> forallb (is_simple t) ps = true -> in_order t ps (mu_uu (fst p)).
Proof.
  induction ps as [|q ps IH]; intros p p' t H C Hs; [exact Logic.I|]. cbn [run_psteps] in H. unfold bnd in H. destruct (run_pstep E U q p) as [p1 r1] eqn:H1. destruct r1 as [[]| |]; try discriminate.
  cbn [forallb] in Hs. apply andb_true_iff in Hs. destruct Hs as [Hq Hs]. destruct (step_cursor q p p1 ps t H1 C Hq) as [C1 Hi]. apply Hi. eapply IH; eauto.
Qed.
(** Programs that leave the cursor alone *)
Definition still {A} (a : M mst A) : Prop := forall p p' r, a p = (p', r) -> mu_ty (fst p') = mu_ty (fst p) /\ mu_uu (fst p') = mu_uu (fst p) /\ mu_complete (fst p') = mu_complete (fst p).
Lemma still_bnd {A B} (a : M mst A) (f : A -> M mst B) : still a -> (forall x, still (f x)) -> still (bnd a f).
Proof.
  intros H1 H2 p p' r H. unfold bnd in H. destruct (a p) as [p1 r1] eqn:Ha. destruct (H1 _ _ _ Ha) as (A1 & A2 & A3). destruct r1 as [x| |]; try (injection H as <- <-; auto).
  destruct (H2 x _ _ _ H) as (B1 & B2 & B3). repeat split; congruence.
Qed.
Lemma still_lift {A} (a : M st A) : still (lift a).
Proof. intros p p' r H. rewrite (lift_mu _ _ _ _ H). auto. Qed.
Lemma still_same {A} (a : M mst A) : (forall p p' r, a p = (p', r) -> p' = p) -> still a.
Proof. intros H p p' r Hr. rewrite (H _ _ _ Hr). auto. Qed.
Lemma still_ret {A} (x : A) : still (ret x).
Proof. apply still_same. now intros p p' r [= <- <-]. Qed.
Lemma still_ub {A} u : still (ub u : M mst A).
Proof. apply still_same. now intros p p' r [= <- <-]. Qed.
Lemma still_raise {A} e : still (raise e : M mst A).
Proof. apply still_same. now intros p p' r [= <- <-]. Qed.
Lemma still_get_mu : still get_mu.
Proof. apply still_same. now intros p p' r [= <- <-]. Qed.
Lemma still_get_mid : still get_mid.
Proof. apply still_same. now intros p p' r [= <- <-]. Qed.
Lemma still_au k : still (set_mu (fun mu => with_au mu k)).
Proof. intros [mu s] p' r [= <- <-]. auto. Qed.
Lemma still_td k : still (set_mu (fun mu => with_tdata mu (k mu))).
Proof. intros [mu s] p' r [= <- <-]. auto. Qed.
Hint Resolve still_lift still_ret still_ub still_raise still_get_mu still_get_mid still_au still_td : still.
Ltac stills := repeat first [ solve [eauto with still] | simple apply still_bnd; [|intros ?] | match goal with |- still (match ?x with _ => _ end) => destruct x end ].
Lemma still_alloc_one i : still (alloc_one E U i).
Proof. unfold alloc_one, target_offset, target_data, target_mixin. stills. Qed.
Lemma still_alloc_loop l : still (alloc_loop E U l).
Proof. induction l; cbn [alloc_loop]; stills. apply still_alloc_one. Qed.
Lemma still_start x : still (start E U x).
Proof. unfold start, allocate_mixin_data. pose proof still_alloc_loop. stills. Qed.
Lemma unwind_not_ok e p p' : @unwind E unit e p <> (p', Ok tt).
Proof. unfold unwind. destruct p as [mu s]. rewrite (bnd_ok _ _ _ _ _ (get_mu_step mu s)). unfold bnd. destruct (mu_moved mu); [discriminate|]. destruct (rollback E (mu, s)) as [p1 r1]. destruct r1; discriminate. Qed.
Lemma pieces_order unw o r ps s s' t : w_type (s_w s) r = Some t -> forallb (is_simple t) ps = true -> piecewise E U unw o r ps s = (s', Ok tt) -> in_order t ps 0.
Proof.
  intros Ht Hs H. unfold piecewise, perform in H. unfold bnd at 1 in H. destruct (get_obj o s) as [s1 r1] eqn:H1. unfold get_obj in H1. destruct (s_obj s o) as [x|]; injection H1 as <- <-; [|discriminate].
  unfold bnd at 1 in H. destruct (get_old x s) as [s2 r2] eqn:H2. assert (s2 = s) as ->. { unfold get_old in H2. destruct (o_type x) as [q|]; [|now injection H2 as <-]. unfold bnd, get_ty in H2. destruct (w_type (s_w s) q); now injection H2 as <-. }
  destruct r2 as [old| |]; try discriminate. rewrite (bnd_ok _ _ _ _ _ (get_ty_step s r t Ht)) in H.
  destruct ((start E U x;; run_psteps E U ps) (new_mut o x old r t, s)) as [p rr] eqn:Hb. destruct rr as [[]|e|u].
  - unfold bnd in Hb. destruct (start E U x (new_mut o x old r t, s)) as [p1 r1] eqn:Hst. destruct r1 as [[]| |]; try discriminate. destruct (still_start x _ _ _ Hst) as (A1 & A2 & A3). cbn in A1, A2, A3.
    rewrite <- A2. eapply steps_cursor; eauto. split; [auto|]. rewrite A2, A3. split; [lia|discriminate].
  - destruct (@unwind E unit e p) as [[mu' s1] rr] eqn:Hu. injection H as -> ->. exfalso. exact (unwind_not_ok _ _ _ Hu).
  - destruct p as [mu' s1]. discriminate.
Qed.
(** update_at only *)
Lemma at_simple t l : t_mixins t <> [] -> forallb (is_simple t) (at_calls l) = true.
Proof. intros H. apply forallb_forall. intros p Hp. apply in_map_iff in Hp. destruct Hp as ([i k] & <- & _). cbn. apply negb_true_iff, Nat.eqb_neq. destruct (t_mixins t); [congruence|discriminate]. Qed.
Lemma at_in t l : forall u i k, steps_ov t (at_calls l) u i = Some k -> In (i, k) l.
Proof.
  induction l as [|[j k'] l IH]; intros u i k H; [discriminate|]. cbn [at_calls map fst snd steps_ov] in H. destruct ((j <? u) || (length (t_mixins t) <? j)); [discriminate|]. destruct (i <? j); [discriminate|].
  destruct (Nat.eqb_spec i j) as [->|]; [injection H as <-; now left|]. right. eapply IH; eauto.
Qed.
Lemma at_ge t l : forall u i k, in_order t (at_calls l) u -> In (i, k) l -> u <= i.
Proof.
  induction l as [|[j k'] l IH]; intros u i k H Hi; [destruct Hi|]. cbn [at_calls map fst snd in_order] in H. destruct H as [H1 H2]. destruct Hi as [Hi|Hi].
  - injection Hi as -> ->. lia.
  - specialize (IH _ _ _ H2 Hi). lia.
Qed.
Lemma at_ov t l : forall u i k, in_order t (at_calls l) u -> u <= length (t_mixins t) -> i < length (t_mixins t) -> In (i, k) l -> steps_ov t (at_calls l) u i = Some k.
Proof.
  induction l as [|[j k'] l IH]; intros u i k H Hu Hn Hi; [destruct Hi|]. pose proof (at_ge t _ _ _ _ H Hi) as Hge. cbn [at_calls map fst snd in_order steps_ov] in *. destruct H as [H1 H2].
  destruct (Nat.ltb_spec j u); [lia|]. destruct (Nat.ltb_spec (length (t_mixins t)) j); [lia|]. cbn [orb]. destruct Hi as [Hi|Hi].
  - injection Hi as -> ->. rewrite Nat.ltb_irrefl, Nat.eqb_refl. reflexivity.
  - pose proof (at_ge t _ _ _ _ H2 Hi). destruct (Nat.ltb_spec i j); [lia|]. destruct (Nat.eqb_spec i j); [lia|]. apply IH; auto. lia.
Qed.
Lemma increasing_order t l : forall u, increasing u (length (t_mixins t)) l -> in_order t (at_calls l) u.
Proof.
  induction l as [|[j k] l IH]; intros u H; [exact Logic.I|]. cbn [increasing at_calls map fst snd in_order] in *. destruct H as [H1 H2]. split; [lia|]. rewrite Nat.min_l by lia. apply IH; auto.
Qed.
Lemma order_cases t l : forall u, in_order t (at_calls l) u -> (forall i k, In (i, k) l -> i <> length (t_mixins t)) -> increasing u (length (t_mixins t)) l.
Proof.
  induction l as [|[j k] l IH]; intros u H Hn; [exact Logic.I|]. cbn [increasing at_calls map fst snd in_order] in *. destruct H as [H1 H2]. pose proof (Hn j k (or_introl eq_refl)). split; [lia|]. apply IH; [|intros; eapply Hn; right; eauto]. now rewrite Nat.min_l in H2 by lia.
Qed.
Lemma pieces_spec s o r l s' res t : Inv s -> typed s -> fair E s (OPiecewise false o r (at_calls l)) -> w_type (s_w s) r = Some t -> op_run E U (OPiecewise false o r (at_calls l)) s = (s', res) ->
  match res with
  | Ok _ => in_order t (at_calls l) 0 /\ exists ev, mutated E s s' o r (made_at E l) (updated_at l) ev /\ all_worked ev
  | Throw e => (exists ev, failed E s s' o (t_mixins t) (maybe_made_at E l) (maybe_updated_at l) ev /\ blames U False s s' ev e) /\
      (e = EBadPiecewise -> ~ in_order t (at_calls l) 0)
  | Ub _ => False
  end.
Proof.
  intros I Ty F Ht Hr. destruct (op_honest E U (OPiecewise false o r (at_calls l)) s s' res Logic.I Hr) as (lh & Hl & _ & Hh). cbn in F. destruct F as (Hw & Hb & Hne & Hf). destruct Hw as (x & Ho & Hxt).
  destruct (act_pieces E U AM s o x r (at_calls l) false I Ty Ho Hb Hne Hf) as (s1 & res1 & t1 & H1 & H2 & H3 & H4 & I' & Ty'). cbn [op_run] in Hr. rewrite Hr in H1. injection H1 as <- <-. assert (t1 = t) as -> by congruence.
  assert (Hsim : forallb (is_simple t) (at_calls l) = true).
  { apply forallb_forall. intros p Hp. specialize (Hf t Ht p Hp). apply in_map_iff in Hp. destruct Hp as ([i k] & <- & _). cbn in *. apply negb_true_iff. now apply Nat.eqb_neq. }
  destruct res as [[]|e|u].
  - pose proof (pieces_order _ _ _ _ _ _ _ Ht Hsim Hr) as Ord. split; auto.
    destruct (outcome_spec E U AM s o x r t _ _ _ false s' (Ok tt) (made_at E l) (updated_at l) I Ty I' Ty' H4) as (_ & ev & M); [|exists ev; split; auto; pose proof (did_fun s s' ev lh (mt_did _ _ _ _ _ _ _ _ M) Hl); subst; exact Hh].
    intros old r0 t0 ddo SU H0. split; intros i m.
    + intros f src Hm Hn. pose proof (nth_error_lt _ _ _ Hm) as Hlt. unfold ov_new in Hn. destruct (steps_ov t (at_calls l) 0 i) as [k|] eqn:Hk.
      * injection Hn as <- <-. split; [|discriminate]. split; auto. left. exists k. split; auto. eapply at_in; eauto.
      * unfold def_new in Hn. rewrite Hm in Hn. destruct (m_init (e_mixin E m)) eqn:Hi; [|discriminate]. injection Hn as <- <-. split; [|discriminate]. split; auto. right. split; auto.
        intros k Hin. rewrite (at_ov t l 0 i k Ord (Nat.le_0_l _) Hlt Hin) in Hk. discriminate.
    + intros Hm. pose proof (nth_error_lt _ _ _ Hm) as Hlt. unfold up_com. destruct (steps_ov t (at_calls l) 0 i) as [k|] eqn:Hk; cbn; (split; [|discriminate]).
      * left. exists k. split; auto. eapply at_in; eauto.
      * right. split; auto. intros k Hin. rewrite (at_ov t l 0 i k Ord (Nat.le_0_l _) Hlt Hin) in Hk. discriminate.
  - split.
    + pose proof (outcome_spec E U AM s o x r t _ _ _ false s' (Throw e) (maybe_made_at E l) (maybe_updated_at l) I Ty I' Ty' H4) as Hx. cbn in Hx. destruct Hx as (ev & M); [|exists ev; split; auto; pose proof (did_fun s s' ev lh (fd_did _ _ _ _ _ _ _ _ M) Hl); subst; exact Hh].
      intros old r0 t0 ddo SU H0. split; intros i m.
      * intros f src Hm Hn. unfold ov_new in Hn. destruct (steps_ov t (at_calls l) 0 i) as [k|] eqn:Hk.
        -- injection Hn as <- <-. split; [|discriminate]. split; auto. left. exists k. split; auto. eapply at_in; eauto.
        -- unfold def_new in Hn. rewrite Hm in Hn. destruct (m_init (e_mixin E m)) eqn:Hi; [|discriminate]. injection Hn as <- <-. split; [|discriminate]. split; auto.
      * intros Hm. unfold up_com. destruct (steps_ov t (at_calls l) 0 i) as [k|] eqn:Hk; cbn; (split; [|discriminate]).
        -- right. exists k. split; auto. eapply at_in; eauto.
        -- left. reflexivity.
    + intros ->. inversion H4; subst. match goal with H : reason _ _ _ _ _ _ _ _ _ _ |- _ => rename H into HR end. inversion HR; auto; try discriminate.
  - inversion H4.
Qed.
End OT8.
