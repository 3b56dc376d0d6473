(** Sealed objects, failed and successful mutations, overrides *)
From Coq Require Import List Arith ZArith NArith Lia Bool.
From Verif Require Import Base Sv SvProofs BaseLemmas Info TypeBuild TypeQuery Domain ElemProofs TypesProofs SpecReg SpecDom HistProofs DomTheorems SpecLayout Heap HeapProofs Mutation Object SpecObj SpecMut SpecAct
  PartProofs RollProofs AllocProofs UpdProofs FinProofs PerfProofs WorldProofs ObjProofs OpProofs PlanProofs ActProofs ActProofs2 MatchProofs ActProofs3 MutProofs MutProofs2 MutTheorems HonestProofs StableProofs ObjTheorems ObjTheorems2 ObjTheorems3.
Import ListNotations.

Section OT4.
Variable E : env.
Variable U : user.
Hypothesis AM : aligned_mixins E.
Notation Inv := (Inv E).
Notation none := PlanProofs.none.

(** ** Sealed objects *)
Lemma outcome_sealed s o x r t np cp ord unw s' res : o_sealed x = true -> outcome E U s o x r t np cp ord unw s' res -> s' = s /\ res = Throw ESealed.
Proof. intros Hse H. inversion H as [| | |old r0 t0 ddo e SU H0 G R Hs]; subst; try congruence. destruct (Hs Hse) as [-> ->]. auto. Qed.
Lemma reset_sealed s o x r unw s' res : o_sealed x = true -> reset_out E U s o x r unw s' res -> s' = s /\ res = Throw ESealed.
Proof. intros Hse H. inversion H; subst; try congruence; auto. Qed.
Lemma to_sealed s o x r ops unw s' res : o_sealed x = true -> to_out E U s o x r ops unw s' res -> s' = s /\ (res = Ok tt -> ops <> [] /\ o_type x = Some r).
Proof.
  intros Hse H. inversion H as [res' Hn Hr|Hn Hx|Hn Hx|]; subst; try congruence; auto.
  - destruct (reset_sealed s o x r unw s' res Hse Hr) as [-> ->]. split; auto. discriminate.
  - split; auto. discriminate.
Qed.
Definition stays (s s' : st) : Prop := unchanged s s' /\ types_kept s s' /\ did s s' [].
Lemma stays_refl s : stays s s.
Proof. split; [apply unchanged_refl|]. split; [intros o q t; auto|unfold did; now rewrite app_nil_r]. Qed.
Lemma made_stays s d s1 r : Inv s -> typed s -> made s d s1 (Ok r) -> stays s s1.
Proof.
  intros I Ty M. destruct (made_view E s d s1 r 0 M I Ty) as (A & B & C & D). split; [|split; auto].
  - split; [intros o; now rewrite A|]. intros b. apply same_block_eq. now rewrite B.
  - unfold did. now rewrite C, app_nil_r.
Qed.
Lemma sealed_spec s op o s' res : Inv s -> typed s -> fair E s op -> retypes op = Some o -> sealed s o -> op_run E U op s = (s', res) -> stays s s' /\ (res = Ok tt -> nothing_to_do E s op).
Proof.
  intros I Ty F Ho (x & Hx & Hse) Hr. destruct op; try discriminate; injection Ho as ->.
  - pose proof (move_spec E U AM s _ _ s' res I Ty F Hr) as H. destruct res as [[]|e|u]; [|destruct H as (-> & _ & _); split; [apply stays_refl|discriminate]|destruct H].
    destruct H as [[-> ->]|(_ & H & _)]; [split; [apply stays_refl|reflexivity]|]. exfalso. apply H. exists x. auto.
  - pose proof (from_spec E U AM s _ _ _ s' res I Ty F Hr) as H. destruct F as ((x' & Hx' & Hxt) & Hn & SD). assert (x' = x) as -> by congruence.
    destruct (s_obj s src) as [y|] eqn:Hy; [|congruence]. destruct (act_from E U AM s o x src y unw I Ty Hx Hxt Hy SD) as (s0 & res0 & H0 & Hout & _). cbn in Hr. rewrite H0 in Hr. injection Hr as <- <-.
    inversion Hout as [| | |b r t dy q t0 res' W Hq Ht0 Hc Hf Ho']; subst; try congruence; [split; [apply stays_refl|discriminate]..|].
    destruct (outcome_sealed _ _ _ _ _ _ _ _ _ _ _ Hse Ho') as [-> ->]. split; [apply stays_refl|discriminate].
  - pose proof (clear_spec E U AM s _ s' res I Ty F Hr) as H. destruct res as [[]|e|u]; [|destruct H as (-> & _ & _); split; [apply stays_refl|discriminate]|destruct H].
    exfalso. apply (proj1 H). exists x. auto.
  - destruct F as ((x' & Hx' & Hxt) & F). assert (x' = x) as -> by congruence. destruct (act_reset E U AM s o x r unw I Ty Hx (fun _ => Hxt) F) as (s0 & res0 & H0 & Hout & _). cbn in Hr. rewrite H0 in Hr. injection Hr as <- <-.
    destruct (reset_sealed _ _ _ _ _ _ _ Hse Hout) as [-> ->]. split; [apply stays_refl|discriminate].
  - destruct F as ((x' & Hx' & Hxt) & F & F2). assert (x' = x) as -> by congruence. destruct (act_to E U AM s o x r ops unw I Ty Hx Hxt F F2) as (s0 & res0 & H0 & _ & Hout & _). cbn in Hr. rewrite H0 in Hr. injection Hr as <- <-.
    destruct (to_sealed _ _ _ _ _ _ _ _ Hse Hout) as [-> Hok]. split; [apply stays_refl|]. intros Hz. destruct (Hok Hz) as [A B]. split; auto. pose proof (type_alive E s o x r I Ty Hx B) as Ha. destruct (w_type (s_w s) r) as [t|] eqn:Ht; [|congruence]. exists t, x. auto.
  - destruct F as ((x' & Hx' & Hxt) & F1 & F2 & F3). assert (x' = x) as -> by congruence. destruct (the_type_ok E s o x I Ty Hx Hxt) as (q & t & Hq & Ht & _).
    destruct (act_mutate E U AM s o x q t ops unw aok I Ty Hx Hq Ht F1 F2 F3) as (s1 & tres & s0 & res0 & HM & H0 & _ & Hout & _). cbn in Hr. rewrite H0 in Hr. injection Hr as <- <-.
    assert (Hty : type_of s o q t) by (exists x; auto).
    inversion Hout as [e|r res' Hr Hm I1 Ty1 Hx1 Hto]; subst; [split; [apply stays_refl|discriminate]|]. destruct (to_sealed _ _ _ _ _ _ _ _ Hse Hto) as [-> Hok].
    split; [eapply made_stays; eauto|]. intros Hz. destruct (Hok Hz) as [A B]. exists r, t. split; [eapply made_target; eauto|]. assert (r = q) as -> by congruence. auto.
  - destruct F as ((x' & Hx' & Hxt) & F). assert (x' = x) as -> by congruence. destruct (the_type_ok E s o x I Ty Hx Hxt) as (q & t & Hq & Ht & _).
    destruct (act_gradual E U AM s o x q t ops unw aok I Ty Hx Hq Ht F) as (s1 & tres & s0 & res0 & HM & H0 & _ & Hout & _). cbn in Hr. rewrite H0 in Hr. injection Hr as <- <-.
    inversion Hout as [res' Hu Hub|e|r res' Hu Hr Hm I1 Ty1 Hx1 Hto]; subst; [split; [apply stays_refl|reflexivity]|split; [apply stays_refl|discriminate]|].
    destruct (reset_sealed _ _ _ _ _ _ _ Hse Hto) as [-> ->]. split; [eapply made_stays; eauto|discriminate].
  - destruct F as ((x' & Hx' & Hxt) & F1 & F2). assert (x' = x) as -> by congruence. destruct (act_c_to E U AM s o x r cs unw I Ty Hx F1 F2) as (s0 & res0 & t & H0 & Ht & Hf & Hout & _). cbn in Hr. rewrite H0 in Hr. injection Hr as <- <-.
    destruct (outcome_sealed _ _ _ _ _ _ _ _ _ _ _ Hse Hout) as [-> ->]. split; [apply stays_refl|discriminate].
  - destruct F as ((x' & Hx' & Hxt) & F). assert (x' = x) as -> by congruence. destruct (the_type_ok E s o x I Ty Hx Hxt) as (q & t & Hq & Ht & _).
    destruct (act_c_mutate E U AM s o x q t cs unw aok I Ty Hx Hq Ht F) as (s1 & tres & s0 & res0 & HM & H0 & _ & Hout & _). cbn in Hr. rewrite H0 in Hr. injection Hr as <- <-.
    inversion Hout as [e|r t1 res' Hr Hm I1 Ty1 Hx1 Ht1 Hf1 Hto]; subst; [split; [apply stays_refl|discriminate]|].
    destruct (outcome_sealed _ _ _ _ _ _ _ _ _ _ _ Hse Hto) as [-> ->]. split; [eapply made_stays; eauto|discriminate].
  - destruct F as ((x' & Hx' & Hxt) & F1 & F2 & F3). assert (x' = x) as -> by congruence. destruct (act_pieces E U AM s o x r ps unw I Ty Hx F1 F2 F3) as (s0 & res0 & t & H0 & Ht & Hf & Hout & _). cbn in Hr. rewrite H0 in Hr. injection Hr as <- <-.
    destruct (outcome_sealed _ _ _ _ _ _ _ _ _ _ _ Hse Hout) as [-> ->]. split; [apply stays_refl|discriminate].
Qed.

(** ** The type of a mutation *)
Lemma inv_bounded s : Inv s -> bounded (s_w s).
Proof. intros I k Hk. destruct (winv_reachable _ _ (iv_reach _ _ I)) as [_ T]. eapply tinv_fresh; eauto. Qed.
Lemma goes_on s s' o r t t' : types_go_on (s_w s) (s_w s') -> w_type (s_w s) r = Some t -> type_of s' o r t' -> exists n, t' = set_nobj t n.
Proof. intros G Ht (x & _ & _ & H). destruct (G r t Ht) as (n & Hn). exists n. congruence. Qed.
Lemma made_goes s o aok b f q t (k : tref -> M st unit) s' r l t' : Inv s -> typed s -> type_of s o q t -> can_mutate E s o aok b f ->
  (forall r, hon (k r)) -> bnd (mutated_type E aok t f) k s = (s', Ok tt) -> f (get_mixin_by_name E (s_w s) (t_dom t)) (t_mixins t) = Ok l ->
  forall w, get_type_mut E aok (s_w s) (t_dom t) (t_dom t) l = (w, Ok r) -> type_of s' o r t' -> exists t1 n, w_type w r = Some t1 /\ t' = set_nobj t1 n.
Proof.
  intros I Ty Hto Hcan Hk Hr Hl w Hw Hty. destruct (act_made E s o aok b f q t I Ty Hto Hcan) as (s1 & tres & H1 & Hub & Hm & I1 & Ty1 & _ & Hg). specialize (Hg l Hl). rewrite Hw in Hg. injection Hg as Hw1 ->.
  rewrite (bnd_ok _ _ _ _ _ H1) in Hr. inversion Hm as [|r' t1 Hs Hb Hse Ht1 Hd]; subst. exists t1. destruct (Hk r s1 s' (Ok tt) Hr (inv_bounded s1 I1)) as (_ & G & _). destruct (goes_on s1 s' o r t1 t' G Ht1 Hty) as (n & Hn). eauto.
Qed.
Lemma target_type s op o unw s' r t' : Inv s -> typed s -> fair E s op -> mutates op = Some (o, unw) -> op_run E U op s = (s', Ok tt) -> aims_at E s op r -> type_of s' o r t' -> unw = false ->
  exists t n, wanted E s op r t /\ type_of s' o r (set_nobj t n).
Proof.
  intros I Ty F Hm Hr Ha Hty Hun.
  assert (Hd : match op with ODom _ => False | _ => True end -> forall t, w_type (s_w s) r = Some t -> exists n, t' = set_nobj t n).
  { intros Hd t Ht. destruct (op_stable E U op s s' (Ok tt) Hd Hr (inv_bounded s I)) as [G _]. eapply goes_on; eauto. }
  destruct op; try discriminate; cbn in Hm; injection Hm as -> ->; cbn in Ha.
  - subst. destruct F as (_ & x & t & _ & Ht & _). destruct (Hd Logic.I t Ht) as (n & ->). exists t, n. cbn. auto.
  - subst. destruct F as (_ & (x & t & _ & Ht & _) & _). destruct (Hd Logic.I t Ht) as (n & ->). exists t, n. cbn. auto.
  - destruct F as ((x & Hx & Hxt) & F1 & F2 & F3). destruct Ha as (q & t0 & l & w & A1 & A2 & A3). pose proof A1 as (x' & B1 & B2 & B3). assert (x' = x) as -> by congruence.
    cbn in Hr. unfold mutate in Hr. rewrite (bnd_ok _ _ _ _ _ (get_obj_step s o x Hx)), (bnd_ok _ _ _ _ _ (the_type_step s x q t0 B2 B3)) in Hr. cbn [snd] in Hr.
    destruct (made_goes s o aok false _ q t0 _ s' r l t' I Ty A1 F2 (fun r => k_mutate_to E U _ o r _) Hr A2 w A3 Hty) as (t1 & n & C1 & ->). exists t1, n. split; auto. exists q, t0, l, w. auto.
  - destruct F as ((x & Hx & Hxt) & F2). destruct Ha as (q & t0 & l & w & A1 & A2 & A3). pose proof A1 as (x' & B1 & B2 & B3). assert (x' = x) as -> by congruence.
    subst unw. cbn in Hr. unfold gradual in Hr. rewrite (bnd_ok _ _ _ _ _ (get_obj_step s o x Hx)), (bnd_ok _ _ _ _ _ (the_type_step s x q t0 B2 B3)) in Hr. cbn [snd] in Hr.
    destruct (made_goes s o aok true _ q t0 _ s' r l t' I Ty A1 F2 (fun r => k_reset E U _ o r) Hr A2 w A3 Hty) as (t1 & n & C1 & ->). exists t1, n. split; auto. exists q, t0, l, w. auto.
  - subst. destruct F as (_ & (x & t & _ & Ht & _) & _). destruct (Hd Logic.I t Ht) as (n & ->). exists t, n. cbn. auto.
  - destruct F as ((x & Hx & Hxt) & F2). destruct Ha as (q & t0 & l & w & A1 & A2 & A3). pose proof A1 as (x' & B1 & B2 & B3). assert (x' = x) as -> by congruence.
    cbn in Hr. unfold c_mutate in Hr. rewrite (bnd_ok _ _ _ _ _ (get_obj_step s o x Hx)), (bnd_ok _ _ _ _ _ (the_type_step s x q t0 B2 B3)) in Hr. cbn [snd] in Hr.
    destruct (made_goes s o aok false _ q t0 _ s' r l t' I Ty A1 F2 ltac:(intros r1; apply k_bnd; [apply k_get_ty|]; intros t1; apply k_perform; apply mk_cop_loop) Hr A2 w A3 Hty) as (t1 & n & C1 & ->). exists t1, n. split; auto. exists q, t0, l, w. auto.
Qed.

Lemma did_fun s s' l l' : did s s' l -> did s s' l' -> l' = l.
Proof. unfold did. intros H1 H2. rewrite H1 in H2. now apply app_inv_head in H2. Qed.
Lemma ok_worked s op s' l : match op with ODom _ => False | _ => True end -> op_run E U op s = (s', Ok tt) -> did s s' l -> all_worked l.
Proof. intros Hd Hr Hl. destruct (op_honest E U op s s' (Ok tt) Hd Hr) as (l' & D & _ & W). now rewrite (did_fun _ _ _ _ D Hl). Qed.
Lemma mutates_not_dom op o unw : mutates op = Some (o, unw) -> match op with ODom _ => False | _ => True end.
Proof. destruct op; intros [=]; exact Logic.I. Qed.

(** A mutation that returns gives the object the wanted type. *)
Lemma mutation_ok s op o s' : Inv s -> typed s -> fair E s op -> mutates op = Some (o, false) -> op_run E U op s = (s', Ok tt) ->
  exists r t n l, wanted E s op r t /\ type_of s' o r (set_nobj t n) /\ mutated E s s' o r (made_with E (inits E s op)) (updated_with (upds E op)) l /\ all_worked l.
Proof.
  intros I Ty F Hm Hr. destruct (mutation_spec E U AM s op o false s' (Ok tt) I Ty F Hm Hr) as (I' & Ty' & [(r & l & Ha & M)|[[=] _]]). destruct (mt_type _ _ _ _ _ _ _ _ M) as (t' & Ht').
  destruct (target_type s op o false s' r t' I Ty F Hm Hr Ha Ht' eq_refl) as (t & n & H1 & H2). exists r, t, n, l. split; auto. split; auto. split; auto. apply (ok_worked s op s' l (mutates_not_dom _ _ _ Hm) Hr (mt_did _ _ _ _ _ _ _ _ M)).
Qed.
(** One that throws changes nothing but what the program's own update functions changed. *)
Lemma mutation_throw s op o unw s' e : Inv s -> typed s -> fair E s op -> mutates op = Some (o, unw) -> (forall m k, ~ upds E op m k) -> op_run E U op s = (s', Throw e) ->
  unchanged s s' /\ types_kept s s' /\ (forall o' i m p v, holds s' o' i m p v <-> holds s o' i m p v).
Proof.
  intros I Ty F Hm Hn Hr. destruct (mutation_spec E U AM s op o unw s' (Throw e) I Ty F Hm Hr) as (I' & Ty' & (ms & l & Hf) & _).
  assert (H1 : unchanged s s') by (eapply (failed_unchanged E AM); eauto; intros i m c [(k & Hk & _)|[_ ->]]; auto; destruct (Hn m k Hk)).
  assert (H2 : types_kept s s') by (exact (fd_types _ _ _ _ _ _ _ _ Hf)). split; auto. split; auto. intros o' i m p v. now apply (unchanged_holds E AM).
Qed.
(** Mixins that the object keeps *)
Lemma mutation_keeps s op o s' : Inv s -> typed s -> fair E s op -> mutates op = Some (o, false) -> op_run E U op s = (s', Ok tt) ->
  exists l, did s s' l /\ forall i j m p v, has_mixin s' o i m -> holds s o j m p v -> (forall k, ~ upds E op m k) -> exists p', holds s' o i m p' v /\
    ((external (e_mixin E m) = true \/ otype s' o = otype s o) /\ p' = p /\ calls m l = [] \/
     external (e_mixin E m) = false /\ otype s' o <> otype s o /\ allocation s (fst p') = None /\ allocation s' (fst p) = None /\ calls m l = EvCall FMoveInit m p' (Some p) 0%Z :: destruction E m p).
Proof.
  intros I Ty F Hm Hr. destruct (mutation_ok s op o s' I Ty F Hm Hr) as (r & t & n & l & H1 & H2 & M & _). exists l. split; [apply (mt_did _ _ _ _ _ _ _ _ M)|]. intros i j m p v Hi Hj Hn.
  assert (Hot : otype s' o = Some r) by (destruct H2 as (x & A & B & _); unfold otype; now rewrite A).
  assert (Hot2 : (exists t, type_of s o r t) <-> otype s o = Some r).
  { unfold otype. split; [intros (t1 & x & A & B & _); now rewrite A|]. destruct (s_obj s o) as [x|] eqn:Hx; [|discriminate]. intros Ht. pose proof (type_alive E s o x r I Ty Hx Ht) as Ha. destruct (w_type (s_w s) r) as [t1|] eqn:Ht1; [|congruence]. exists t1, x. auto. }
  assert (Hstay : external (e_mixin E m) = true \/ otype s o = Some r -> exists p', holds s' o i m p' v /\ p' = p /\ calls m l = []).
  { intros Hs. rewrite <- Hot2 in Hs. destruct (mt_stay _ _ _ _ _ _ _ _ M i j m p v Hi Hj Hs) as (v' & c & A1 & [(k & Hk & _)|[_ ->]] & A3 & A4); [destruct (Hn k Hk)|]. cbn in A3, A4. subst v'. exists p. auto. }
  rewrite Hot. destruct (external (e_mixin E m)) eqn:He.
  - destruct (Hstay (or_introl eq_refl)) as (p' & A & B & C). exists p'. split; auto.
  - destruct (Hot2) as [Ha Hb]. assert (Hdec : otype s o = Some r \/ otype s o <> Some r) by (destruct (otype s o) as [q|]; [|right; discriminate]; destruct (tref_eqb_spec q r); [left|right]; congruence).
    destruct Hdec as [Hd|Hd]; [destruct (Hstay (or_intror Hd)) as (p' & A & B & C); exists p'; split; auto; left; rewrite Hd; auto|].
    destruct (mt_moved _ _ _ _ _ _ _ _ M i j m p v Hi Hj He) as (p' & v' & c & A1 & A2 & A3 & [(k & Hk & _)|[_ ->]] & A5 & A6); [intros Z; apply Hd; now apply Hot2|destruct (Hn k Hk)|].
    cbn in A5, A6. subst v'. exists p'. split; auto. right. repeat (split; auto).
Qed.
(** After a mutation the object has a living instance of exactly the mixins of the type. *)
Lemma mutation_has s op o s' : Inv s -> typed s -> fair E s op -> mutates op = Some (o, false) -> op_run E U op s = (s', Ok tt) ->
  exists r t, wanted E s op r t /\ otype s' o = Some r /\
    (forall i m, nth_error (t_mixins t) i = Some m -> exists p v, holds s' o i m p v /\ get s' o (w_mid (s_w s') m) = Ok (Some p)) /\
    (forall i m p v, holds s' o i m p v -> nth_error (t_mixins t) i = Some m) /\
    (forall id, (forall m, In m (t_mixins t) -> w_mid (s_w s') m <> id) -> get s' o id = Ok None).
Proof.
  intros I Ty F Hm Hr. destruct (mutation_ok s op o s' I Ty F Hm Hr) as (r & t & n & l & H1 & H2 & M & _). destruct (mutation_spec E U AM s op o false s' (Ok tt) I Ty F Hm Hr) as (I' & Ty' & _).
  exists r, t. split; auto. pose proof H2 as (x & A & B & C). split; [unfold otype; now rewrite A|].
  assert (Hts : with_type_set s' o) by (exists x; split; auto; congruence). destruct (queries_agree E AM s' o I' Ty' Hts) as (_ & _ & Q1 & Q2 & _).
  assert (Hi : forall i m, has_mixin s' o i m <-> nth_error (t_mixins t) i = Some m).
  { intros i m. split; [intros (r' & t' & D & G); destruct (type_of_fun s' o r _ r' t' H2 D) as [-> ->]; auto|intros D; exists r, (set_nobj t n); auto]. }
  split; [|split].
  - intros i m Him. apply Hi in Him. destruct (mixin_holds E s' o i m I' Ty' Him) as (p & v & H). exists p, v. split; auto. apply Q1. exists i, m, v. auto.
  - intros i m p v (H & _). now apply Hi.
  - intros id Hid. apply Q2. intros m (i & H). apply Hid. apply Hi in H. eapply nth_error_In; eauto.
Qed.
(** New and removed mixins *)
Lemma mutation_changes s op o s' : Inv s -> typed s -> fair E s op -> mutates op = Some (o, false) -> op_run E U op s = (s', Ok tt) ->
  exists l, did s s' l /\
    (forall i m, has_mixin s' o i m -> ~ has_some s o m -> exists p v f, holds s' o i m p v /\ allocation s (fst p) = None /\ calls m l = [EvCall f m p None 0%Z] /\ made_with E (inits E s op) i m f None) /\
    (forall j m p v, holds s o j m p v -> ~ has_some s' o m -> calls m l = destruction E m p /\ allocation s' (fst p) = None) /\
    (forall m, ~ has_some s o m -> ~ has_some s' o m -> calls m l = []).
Proof.
  intros I Ty F Hm Hr. destruct (mutation_ok s op o s' I Ty F Hm Hr) as (r & t & n & l & H1 & H2 & M & _). exists l. split; [apply (mt_did _ _ _ _ _ _ _ _ M)|]. split; [|split].
  - intros i m Hi Hn. destruct (mt_new _ _ _ _ _ _ _ _ M i m Hi Hn) as (p & v & f & src & A1 & A2 & A3 & A4 & A5). assert (src = None) as -> by (apply A3). exists p, v, f. auto.
  - apply (mt_gone _ _ _ _ _ _ _ _ M).
  - apply (mt_quiet _ _ _ _ _ _ _ _ M).
Qed.
End OT4.
