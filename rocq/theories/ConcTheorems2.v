(** Theorems about threads. *)
From Coq Require Import List Arith ZArith NArith Lia Bool.
From Verif Require Import Base Sv Info Registry TypeMut Rules TypeBuild TypeQuery Domain ElemProofs TypesProofs SpecReg SpecDom DomTheorems SpecRule RuleTheorems2
  Conc SpecConc CongProofs ConcProofs ConcTheorems.
Import ListNotations.

Section ConcTheorems2.
Variable E : env.

Lemma effects_called g p : one_by_one g p ->
  (forall o r, In (o, r) (effects g) -> exists i, In (HCall i o) (seen g)) /\ (forall i o, p i = Called o -> In (HCall i o) (seen g)).
Proof.
  induction 1 as [|g p i o O [IH1 IH2] P|g p i o r O [IH1 IH2] P|g p i r O [IH1 IH2] P]; rewrite ?seen_app, ?effects_app; cbn [seen effects]; rewrite ?app_nil_r.
  - split; [contradiction|discriminate].
  - split.
    + intros o' r' K. destruct (IH1 o' r' K) as [j J]. exists j. apply in_or_app. now left.
    + intros j o' K. unfold set_phase in K. destruct (Nat.eqb_spec j i) as [->|N]; apply in_or_app; [injection K as ->; right; now left|left; auto].
  - split.
    + intros o' r' K. apply in_app_or in K. destruct K as [K|[K|[]]]; [eauto|]. injection K as <- <-. exists i. auto.
    + intros j o' K. unfold set_phase in K. destruct (Nat.eqb_spec j i) as [->|N]; [discriminate|auto].
  - split.
    + intros o' r' K. destruct (IH1 o' r' K) as [j J]. exists j. apply in_or_app. now left.
    + intros j o' K. unfold set_phase in K. destruct (Nat.eqb_spec j i) as [->|N]; [discriminate|]. apply in_or_app. left. auto.
Qed.

Lemma run_still w0 tr w : run E w0 tr w -> reachable E w0 -> (forall o r, In (o, r) tr -> calm o) ->
  still E w0 w /\ forall o r, In (o, r) tr -> exists wa wb, reachable E wa /\ still E w0 wa /\ dstep E wa o = (wb, r) /\ ~ is_ub r /\ still E wb w.
Proof.
  induction 1 as [w|w tr w1 o r w2 R IH S U]; intros R0 CA; [split; [apply still_refl|contradiction]|].
  assert (CT : forall o r, In (o, r) tr -> calm o) by (intros o' r' K; apply (CA o' r'); apply in_or_app; now left).
  destruct (IH R0 CT) as [IH1 IH2]. pose proof (reach_run E _ _ _ R0 R) as RW.
  assert (ST : still E w1 w2). { eapply still_step; eauto. apply (CA o r). apply in_or_app. right. now left. }
  split; [eapply still_trans; eauto|]. intros o' r' K. apply in_app_or in K. destruct K as [K|[K|[]]].
  - destruct (IH2 o' r' K) as (wa & wb & A & B & C & D & F). exists wa, wb. repeat (split; [assumption|]). eapply still_trans; eauto.
  - injection K as <- <-. exists w1, w2. repeat (split; [assumption|]). apply still_refl.
Qed.

Lemma asks_not_unregistering s : (forall i p, c_th s i = Some p -> asks_pos p) -> not_unregistering s.
Proof. intros A i d m K. exact (A i _ K). Qed.

Lemma c56_agree w0 h s : reachable E w0 -> crun E any_step w0 h s -> only_asks h ->
  (forall o d q r, In (o, r) (answers h) -> o = DGetType d q true \/ o = DGetTypeMut d d q true ->
     (exists e, get_type E true w0 d q = (w0, Throw e) /\ r = Throw e) \/
     (exists w1 r1 t1 r2 t2, get_type E true w0 d q = (w1, Ok r1) /\ has_type w1 d r1 t1 /\
        r = Ok (Some r2) /\ has_type (c_w s) d r2 t2 /\ t_mixins t2 = t_mixins t1)) /\
  (forall d r r' t t', has_type (c_w s) d r t -> has_type (c_w s) d r' t' -> (r = r' <-> t_mixins t = t_mixins t')) /\
  linearizable E w0 h (c_w s).
Proof.
  intros R0 C A. destruct (asks_quiet E w0 h s C A) as [CQ AP]. pose proof (asks_not_unregistering s AP) as NR.
  pose proof (c56 E w0 h s R0 CQ NR) as LIN. pose proof LIN as (g & p & ws & O & S & R & SW). pose proof (reach_run E _ _ _ R0 R) as RW.
  destruct (answers_effects g p O) as [AE _]. destruct (effects_called g p O) as [EC _]. rewrite S in AE, EC.
  assert (CA : forall o r, In (o, r) (effects g) -> calm o). { intros o r K. destruct (EC o r K) as [i I1]. exact (A i o I1). }
  destruct (run_still w0 _ ws R R0 CA) as [_ RS]. split; [|split; [|exact LIN]].
  - intros o d q r K OO. destruct (RS o r (AE o r K)) as (wa & wb & RA & SA & D & U & SB).
    assert (G : exists x, get_type E true wa d q = (wb, x) /\ ~ is_ub x /\ r = snd (retty (wb, x))).
    { destruct (get_type E true wa d q) as [wx x] eqn:G. exists x.
      assert (D' : retty (wx, x) = (wb, r)). { destruct OO as [-> | ->]; cbn [dstep] in D; [now rewrite G in D|]. now rewrite get_type_mut_same, G in D. }
      unfold retty in *. cbn [fst snd] in *. injection D' as -> <-. split; [reflexivity|]. split; [|reflexivity]. intros K2. apply U. now destruct x. }
    destruct G as (x & G & UX & ->). destruct (still_answer E w0 wa d q wb x R0 RA SA G UX) as [(e & G0 & ->)|(w1 & t0 & t & ms & G0 & -> & T0 & T)].
    + left. exists e. auto.
    + right. destruct T0 as (x0 & H0 & M0). apply (cl_types _ _ _ (st_calm _ _ _ SB)) in T. destruct T as (x1 & H1 & M1).
      exists w1, t0, x0, t, x1. split; [exact G0|]. split; [exact H0|]. split; [reflexivity|]. split; [eapply same_has_type; eauto|congruence].
  - intros d r r' t t' H H'. apply (has_type_unique E ws d r r' t t' RW); eapply same_has_type; eauto; now apply same_sym.
Qed.

Lemma same_forget_queries w w' d : same_world w w' -> same_world (forget_queries w d) (forget_queries w' d).
Proof.
  intros (A & B & C & D & F & G). unfold forget_queries, same_world. cbn. repeat split; auto. intros d2. rewrite (D d). destruct (d2 =? d); auto.
Qed.
Lemma same_current w w' d : same_world w w' -> current_answers E w d -> current_answers E w' d.
Proof.
  intros S H a q w1 r1 w2 r2 G1 G2. destruct (same_get_type E a w w' d q S) as [S1 X1]. destruct (same_get_type E a _ _ d q (same_forget_queries w w' d S)) as [S2 X2].
  destruct (get_type E a w d q) as [v1 x1] eqn:K1. destruct (get_type E a (forget_queries w d) d q) as [v2 x2] eqn:K2. rewrite G1 in S1, X1. rewrite G2 in S2, X2. cbn [fst snd] in *.
  destruct (H a q v1 x1 v2 x2 K1 K2) as (B1 & B2 & B3). destruct S1 as (_ & _ & _ & D1 & T1 & _). destruct S2 as (_ & _ & _ & D2 & T2 & _).
  split; [congruence|]. split; [intros r; rewrite <- T1, <- T2; apply B2|]. intros d2. rewrite <- D1, <- D2. apply B3.
Qed.

Lemma run_where_extend w0 tr0 tr w : run E w0 tr w -> (forall o r, In (o, r) tr -> ~ mixin_op o) ->
  run_where E registered_first tr0 w0 -> run_where E registered_first (tr0 ++ tr) w.
Proof.
  intros R. revert tr0. induction R as [w|w tr w1 o r w2 R IH S U]; intros tr0 N R0; [now rewrite app_nil_r|].
  rewrite app_assoc. eapply rw_snoc; eauto.
  - apply IH; auto. intros o' r' K. apply (N o' r'). apply in_or_app. now left.
  - assert (NO : ~ mixin_op o) by (apply (N o r); apply in_or_app; right; now left). destruct o; cbn; auto; exfalso; now apply NO.
Qed.

Lemma c57_quiet tr w0 h s d : current_history E tr w0 -> crun E quiet w0 h s -> not_unregistering s -> rules_pure E \/ no_registrations h ->
  current_answers E (c_w s) d.
Proof.
  intros CH C NR PU. assert (RT : run E (init_world E) tr w0).
  { destruct CH as [[_ R]|R]; [exact R|]. eapply run_where_run; eauto. }
  assert (R0 : reachable E w0) by (now exists tr).
  destruct (c56 E w0 h s R0 C NR) as (g & p & ws & O & S & R & SW). apply (same_current ws); [exact SW|]. apply (c13 E (tr ++ effects g)).
  destruct PU as [PU|NO].
  - left. split; [exact PU|]. eapply run_trans; eauto.
  - destruct CH as [[PU _]|RF]; [left; split; [exact PU|eapply run_trans; eauto]|right]. apply run_where_extend with w0; auto.
    destruct (effects_called g p O) as [EC _]. intros o r K MO. destruct (EC o r K) as [i I1]. rewrite S in I1. specialize (NO i o I1). destruct o; contradiction.
Qed.

Lemma c58_quiet w0 h s : reachable E w0 -> crun E quiet w0 h s -> not_unregistering s ->
  forall d q r, In (q, r) (d_queries (w_dom (c_w s) d)) -> exists t, has_type (c_w s) d r t.
Proof.
  intros R0 C NR d q r I0. destruct (c56 E w0 h s R0 C NR) as (g & p & ws & O & S & R & SW). pose proof (reach_run E _ _ _ R0 R) as RW.
  destruct (winv_reachable E ws RW) as [_ TI]. assert (I1 : In (q, r) (d_queries (w_dom ws d))) by (destruct SW as (_ & _ & _ & D & _); now rewrite D).
  assert (X : exists t, has_type ws d r t).
  { destruct (ti_queries _ _ TI d q r I1) as [->|I2].
    - destruct (ti_empty _ _ TI d) as [k HT]. eexists. split; [exact HT|now left].
    - destruct (ti_types _ _ TI d r I2) as (n & t & _ & _ & T & _). exists t. split; auto. }
  destruct X as [t T]. exists t. eapply same_has_type; eauto.
Qed.

End ConcTheorems2.

(** ** Concrete schedules *)
Inductive act := ACall (i : nat) (o : dop) | AStep (i : nat) | ARet (i : nat).

Section Exec.
Variable E : env.
Variable n : nat.   (* the number of threads *)

Definition affectsb (w : world) (p pj : pos) : bool :=
  let mid := match pj with PStore _ _ _ | PBuild _ _ _ _ | PInsert _ _ _ | PUnreg _ _ => true | _ => false end in
  let within d := match pj with PStore d' _ _ | PBuild d' _ _ _ | PInsert d' _ _ => d' =? d | _ => false end in
  match p with
  | PAtomic (DAddRule d _) | PAtomic (DRemRule d _) => within d
  | PAtomic (DGc d) => match pj with PStore d' _ t => (d' =? d) && negb (tref_eqb t (TEmpty d)) && (ref_nobj w t =? 0) | _ => false end
  | PAtomic (DRegFeature _ _) | PAtomic (DUnregFeature _ _) | PAtomic (DRegMixin _ _) | PPurge _ _ => mid
  | _ => false
  end.
Definition quietb (s : cst) (i : nat) (p : pos) : bool :=
  forallb (fun j => (j =? i) || match c_th s j with None => true | Some pj => negb (affectsb (c_w s) p pj) && match pj with PUnreg _ _ => false | _ => true end end) (seq 0 n).

(** state, history, and whether all steps were possible, and quiet *)
Record ex := { x_s : cst; x_h : list hev; x_ok : bool; x_quiet : bool }.
Definition exec1 (x : ex) (a : act) : ex :=
  let s := x_s x in
  match a with
  | ACall i o => {| x_s := {| c_w := c_w s; c_th := set_th (c_th s) i (Some (enter o)) |}; x_h := x_h x ++ [HCall i o];
                    x_ok := x_ok x && (i <? n) && match c_th s i with None => true | _ => false end; x_quiet := x_quiet x |}
  | AStep i =>
    match c_th s i with
    | Some p =>
      let (w', p') := section E (c_w s) p in
      {| x_s := {| c_w := w'; c_th := set_th (c_th s) i (Some p') |}; x_h := x_h x;
         x_ok := x_ok x && (i <? n) && match p' with PDone (Ub _) => false | _ => true end; x_quiet := x_quiet x && quietb s i p |}
    | None => {| x_s := s; x_h := x_h x; x_ok := false; x_quiet := false |}
    end
  | ARet i =>
    match c_th s i with
    | Some (PDone r) => {| x_s := {| c_w := c_w s; c_th := set_th (c_th s) i None |}; x_h := x_h x ++ [HRet i r]; x_ok := x_ok x && (i <? n); x_quiet := x_quiet x |}
    | _ => {| x_s := s; x_h := x_h x; x_ok := false; x_quiet := false |}
    end
  end.
Definition exec (w0 : world) (l : list act) : ex :=
  fold_left exec1 l {| x_s := {| c_w := w0; c_th := fun _ => None |}; x_h := []; x_ok := true; x_quiet := true |}.

Lemma affectsb_ok w p pj : affectsb w p pj = false -> ~ affects w p pj.
Proof.
  destruct p as [o| | | | | | | |]; cbn; auto; [destruct o; cbn; auto|];
    try (destruct pj; cbn; auto; try discriminate; try (intros K; apply Nat.eqb_neq in K; exact K); fail).
  intros K (q & t & -> & NT & Z). rewrite Nat.eqb_refl, Z in K. destruct (tref_eqb_spec t (TEmpty d)); [contradiction|discriminate K].
Qed.

Lemma exec_ok w0 l : x_ok (exec w0 l) = true ->
  crun E any_step w0 (x_h (exec w0 l)) (x_s (exec w0 l)) /\ (forall j, n <= j -> c_th (x_s (exec w0 l)) j = None) /\
  (x_quiet (exec w0 l) = true -> crun E quiet w0 (x_h (exec w0 l)) (x_s (exec w0 l))).
Proof.
  induction l as [|a l IH] using rev_ind; [intros _; split; [constructor|split; [auto|constructor]]|].
  unfold exec in *. rewrite fold_left_app. cbn [fold_left]. set (x := fold_left exec1 l _) in *.
  destruct a as [i o|i|i]; cbn [exec1]; intros K.
  - cbn [x_ok] in K. apply andb_prop in K. destruct K as [K K3]. apply andb_prop in K. destruct K as [K1 K2]. apply Nat.ltb_lt in K2.
    assert (T : c_th (x_s x) i = None) by (now destruct (c_th (x_s x) i)).
    destruct (IH K1) as (A & B & C). cbn [x_h x_s x_quiet c_th]. split; [now apply cr_call|]. split; [intros j J; rewrite set_th_other by lia; auto|]. intros Q. apply cr_call; auto.
  - destruct (c_th (x_s x) i) as [p|] eqn:T; [|discriminate K]. destruct (section E (c_w (x_s x)) p) as [w' p'] eqn:X.
    cbn [x_ok x_h x_s x_quiet c_th] in *. apply andb_prop in K. destruct K as [K K3]. apply andb_prop in K. destruct K as [K1 K2]. apply Nat.ltb_lt in K2.
    destruct (IH K1) as (A & B & C). assert (NU : forall u, p' <> PDone (Ub u)) by (intros u ->; discriminate K3).
    split; [eapply cr_step; eauto; exact I|]. split; [intros j J; rewrite set_th_other by lia; auto|].
    intros Q. apply andb_prop in Q. destruct Q as [Q1 Q2]. eapply cr_step; eauto.
    intros j pj NJ Hj. unfold quietb in Q2. rewrite forallb_forall in Q2.
    assert (J : In j (seq 0 n)). { apply in_seq. destruct (le_lt_dec n j) as [L|L]; [rewrite (B j L) in Hj; discriminate|lia]. }
    specialize (Q2 j J). rewrite Hj in Q2. destruct (Nat.eqb_spec j i) as [|_]; [contradiction|]. cbn [orb] in Q2. apply andb_prop in Q2. destruct Q2 as [Q2 Q3].
    split; [apply affectsb_ok; now apply negb_true_iff|]. intros d m ->. discriminate Q3.
  - destruct (c_th (x_s x) i) as [[| | | | | | | |r]|] eqn:T; try discriminate K. cbn [x_ok x_h x_s x_quiet c_th] in *.
    apply andb_prop in K. destruct K as [K1 K2]. apply Nat.ltb_lt in K2. destruct (IH K1) as (A & B & C).
    split; [now apply cr_ret|]. split; [intros j J; rewrite set_th_other by lia; auto|]. intros Q. apply cr_ret; auto.
Qed.

(** Nobody is in a call *)
Lemma exec_done w0 l : x_ok (exec w0 l) = true -> forallb (fun j => match c_th (x_s (exec w0 l)) j with None => true | _ => false end) (seq 0 n) = true -> all_done (x_s (exec w0 l)).
Proof.
  intros K F j. destruct (exec_ok w0 l K) as (_ & B & _). destruct (le_lt_dec n j) as [L|L]; [auto|]. rewrite forallb_forall in F.
  specialize (F j). rewrite in_seq in F. specialize (F ltac:(lia)). now destruct (c_th _ j).
Qed.
Lemma done_not_unregistering s : all_done s -> not_unregistering s.
Proof. intros A i d m. rewrite A. discriminate. Qed.
End Exec.

(** The calls of a history *)
Definition callsb (b : dop -> bool) (h : list hev) : bool := forallb (fun e => match e with HCall _ o => b o | _ => true end) h.
Lemma callsb_ok b h : callsb b h = true -> forall i o, In (HCall i o) h -> b o = true.
Proof. unfold callsb. rewrite forallb_forall. intros H i o K. exact (H _ K). Qed.
