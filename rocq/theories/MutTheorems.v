(** What the calls that mutate an object do *)
From Coq Require Import List Arith ZArith NArith Lia Bool.
From Verif Require Import Base Sv SvProofs BaseLemmas Info TypeBuild TypeQuery Domain TypesProofs SpecDom HistProofs DomTheorems SpecLayout Heap HeapProofs Mutation Object SpecObj SpecMut
  PartProofs RollProofs AllocProofs UpdProofs FinProofs PerfProofs WorldProofs ObjProofs OpProofs PlanProofs ActProofs ActProofs2 MatchProofs ActProofs3 MutProofs MutProofs2.
Import ListNotations.

Section MT.
Variable E : env.
Variable U : user.
Hypothesis AM : aligned_mixins E.
Notation Inv := (Inv E).
Notation none := PlanProofs.none.

(** The result of a mutation of [o] to [r] (or of an attempt) *)
Definition result (s s' : st) (o : nat) (r : tref) (unw : bool) (ov uv : mptr -> nat -> Prop) (res : res unit) : Prop :=
  match res with
  | Ok _ => (exists l, mutated E s s' o r (made_with E ov) (updated_with uv) l) \/ unw = true /\ exists ms l, failed E s s' o ms (made_with E ov) (updated_with uv) l
  | Throw e => (exists ms l, failed E s s' o ms (made_with E ov) (updated_with uv) l) /\ may_throw E s s' o r ov e
  | Ub _ => False
  end.
Lemma outcome_reason s o x r t ov uv (ovr : mptr -> nat -> Prop) unw s' e : Inv s -> typed s -> outcome E U s o x r t (fun _ => ov_new E t ov) (up_com uv) False unw s' (Throw e) ->
  (forall i m k, nth_error (t_mixins t) i = Some m -> (ov i = Some k <-> ovr m k)) -> may_throw E s s' o r ovr e.
Proof.
  intros I Ty H Ho. inversion H as [| | |old r0 t0 ddo e' SU H0 G R]; subst. destruct R as [Hs ->|k -> Hk|u Hu Hn Hp ->|k u Hu _ _ Hk ->|[]]; cbn; auto.
  - exists x. split; auto. exact (su_obj _ _ _ _ _ _ _ _ _ _ _ SU).
  - destruct (nth_error (t_mixins t) u) as [m|] eqn:Hm; [|apply nth_error_None in Hm; lia]. exists t, m.
    destruct G as (oldv & k & tb & dd & u' & lx & K & _). split; [rewrite (wl_type _ _ (kp_w _ _ _ _ _ _ _ _ _ K)); exact (su_ty _ _ _ _ _ _ _ _ _ _ _ SU)|]. split; [eapply nth_error_In; eauto|].
    split; [eapply nw_has; eauto|]. unfold ov_new, def_new in Hp. destruct (ov u) as [z|] eqn:Hov; [discriminate|]. split.
    + intros z Hz. apply (Ho u m z Hm) in Hz. congruence.
    + rewrite Hm in Hp. destruct (m_init (e_mixin E m)); [discriminate|auto].
Qed.
Lemma ov_result s o x r t ov uv (ovr uvr : mptr -> nat -> Prop) unw s' res :  Inv s -> typed s -> Inv s' -> typed s' ->
  outcome E U s o x r t (fun _ => ov_new E t ov) (up_com uv) False unw s' res ->
  (forall i m k, nth_error (t_mixins t) i = Some m -> (ov i = Some k <-> ovr m k)) -> (forall i m k, nth_error (t_mixins t) i = Some m -> (uv i = Some k <-> uvr m k)) ->
  result s s' o r unw ovr uvr res.
Proof.
  intros I Ty I' Ty' H Ho Hu. pose proof (ov_spec E U AM s o x r t ov uv ovr uvr unw s' res False I Ty I' Ty' H Ho Hu) as Hs. destruct res as [[]|e|u]; cbn; auto.
  - destruct Hs as [_ Hs]. destruct unw; [right|left; auto]. destruct Hs as (l & Hs). eauto.
  - destruct Hs as (l & Hs). split; [eauto|]. eapply outcome_reason; eauto.
Qed.
Lemma reset_result s o x r unw s' res : Inv s -> typed s -> Inv s' -> typed s' -> s_obj s o = Some x -> o_type x <> None -> reset_out E U s o x r unw s' res ->
  result s s' o r unw (fun _ _ => False) (fun _ _ => False) res.
Proof.
  intros I Ty I' Ty' Ho Hn H. destruct H as [Hs ->|Hs Hr ->|t Hs Hr Ht Hm Hrr Hem|t res Hs Hr Ht Hm Hf Hout].
  - split; [exists [], []; apply failed_refl|exists x; auto].
  - left. exists []. destruct (the_type_ok E s o x I Ty Ho Hn) as (q & t & Hq & Ht & _). assert (q = r) as -> by congruence. apply (mutated_refl E AM s o r t); auto; [exists x; auto|].
    intros i m. right. split; auto.
  - left. destruct (emptied_wiped E AM s o x _ s' I Ty Ho Hem) as (l & W). exists l. assert (Hy : s_obj s' o = Some (with_otype (with_odata x None) (Some r))) by (destruct Hem as (s1 & _ & ->); cbn; now rewrite upd_same).
    destruct Hem as (s1 & C & ->). destruct (cl_type2 E s o x s1 r t C Ht) as (n & Hn1). eapply (wiped_mutated E AM s _ o _ r (set_nobj t n)); eauto; reflexivity.
  - eapply ov_result; eauto; intros; unfold none; (split; [discriminate|intros []]).
Qed.
Lemma weak_result s s' o r unw (ov ov' uv uv' : mptr -> nat -> Prop) res : (forall m k, ov m k <-> ov' m k) -> (forall m k, uv m k <-> uv' m k) -> result s s' o r unw ov uv res -> result s s' o r unw ov' uv' res.
Proof.
  intros H1 H2. assert (Ha : forall i m f src, made_with E ov i m f src -> made_with E ov' i m f src).
  { intros i m f src (A & [(k & B & C)|(B & C)]); (split; [auto|]); [left; exists k; split; auto; now apply H1|right; split; auto; intros k Hk; apply (B k); now apply H1]. }
  assert (Hb : forall i m c, updated_with uv i m c -> updated_with uv' i m c).
  { intros i m c [(k & B & C)|(B & C)]; [left; exists k; split; auto; now apply H2|right; split; auto; intros k Hk; apply (B k); now apply H2]. }
  destruct res as [[]|e|u]; cbn; auto.
  - intros [(l & Hl)|(Hu & ms & l & Hl)]; [left; exists l; eapply mutated_weak; eauto|right; split; auto; exists ms, l; eapply failed_weak; eauto].
  - intros [(ms & l & Hl) Hw]. split; [exists ms, l; eapply failed_weak; eauto|]. destruct e; auto. destruct Hw as (t & m & A1 & A2 & A3 & A4 & A5). exists t, m. split; auto. split; auto. split; auto. split; auto.
    intros k Hk. apply (A4 k). now apply H1.
Qed.
Lemma to_result s o x r ops unw s' res : Inv s -> typed s -> Inv s' -> typed s' -> s_obj s o = Some x -> o_type x <> None -> to_out E U s o x r ops unw s' res ->
  result s s' o r unw (fun m k => exists d, object_domain s o d /\ op_gives E (s_w s) d ops m k) (fun _ _ => False) res.
Proof.
  intros I Ty I' Ty' Ho Hn H. destruct H as [res Hops Hr|Hops Hr ->|Hops Hr Hs ->|q t0 t l res Hops Hq Ht0 Hqr Hs Ht Hm Hf Hfi Hl Hout].
  - subst ops. eapply weak_result; [| |eapply reset_result; eauto]; [|tauto]. intros m k. split; [intros []|]. intros (d & _ & op & [] & _).
  - left. exists []. destruct (the_type_ok E s o x I Ty Ho Hn) as (q & t & Hq & Ht & _). assert (q = r) as -> by congruence. apply (mutated_refl E AM s o r t); auto; [exists x; auto|]. intros i m. right. split; auto.
  - split; [exists [], []; apply failed_refl|exists x; auto].
  - eapply ov_result; eauto.
    + intros i m k Hi. rewrite (ops_ov_gives E (s_w s) r t (t_dom t0) ops l i m k (iv_reach _ _ I) Ht (inv_good E AM s r t I Ht) Hfi Hl Hi). split.
      * intros Hg. exists (t_dom t0). split; auto. exists q, t0. split; auto. exists x. auto.
      * intros (d & (q' & t' & (x' & A & B & C) & <-) & Hg). assert (t' = t0) as -> by congruence. auto.
    + intros; unfold none; split; [discriminate|intros []].
Qed.

Lemma made_view s d s1 r o : made s d s1 (Ok r) -> Inv s -> typed s -> same_view s s1 o.
Proof.
  intros Hm I Ty. split; [|split; [|split]].
  - inversion Hm as [|r' t Hs]; subst. now rewrite Hs.
  - inversion Hm as [|r' t Hs]; subst. now rewrite Hs.
  - inversion Hm as [|r' t Hs]; subst. now rewrite Hs.
  - intros o' q t (x & A & B & C). destruct (made_type E s d s1 _ o' x q t Hm I Ty A B C) as [D1 D2]. exists x. auto.
Qed.
Lemma view_result s s1 s' o r unw ov uv res : same_view s s1 o -> Inv s -> typed s -> with_type_set s o -> result s1 s' o r unw ov uv res -> result s s' o r unw ov uv res.
Proof.
  intros V I Ty Ts. destruct res as [[]|e|u]; cbn; auto.
  - intros [(l & Hl)|(Hu & ms & l & Hl)]; [left; exists l; eapply view_mutated; eauto|right; split; auto; exists ms, l; eapply view_failed; eauto].
  - intros [(ms & l & Hl) Hw]. split; [exists ms, l; eapply view_failed; eauto|]. destruct e; auto.
    + destruct Hw as (x & A1 & A2). exists x. split; auto. destruct V as (V1 & _). congruence.
    + destruct Hw as (t & m & A1 & A2 & A3 & A4 & A5). exists t, m. split; auto. split; auto. split; auto. intros (i & Hi). apply A3. exists i. eapply view_mixin; eauto.
Qed.
Lemma made_target s o q t aok f s1 r : type_of s o q t -> mutated_type E aok t f s = (s1, Ok r) -> changed_type E s o aok f r.
Proof.
  intros T H. unfold mutated_type, bnd in H. destruct (f (get_mixin_by_name E (s_w s) (t_dom t)) (t_mixins t)) as [l|e|u] eqn:Hl; try discriminate. unfold on_world in H. injection H as _ H.
  exists q, t, l, (fst (get_type_mut E aok (s_w s) (t_dom t) (t_dom t) l)). split; auto. split; auto. rewrite <- H. now destruct (get_type_mut _ _ _ _ _ _).
Qed.

Lemma cover_matches_iff m c : cover_matches E m c = true <-> cover_for E c m.
Proof.
  unfold cover_matches, cover_for. destruct (co_mixin c) as [z|].
  - rewrite Nat.eqb_eq. split; [intros ->; auto|]. intros [[= ->]|[A _]]; auto; discriminate.
  - destruct (bytes_eqb_spec (co_name c) (sv_bytes (m_name (e_mixin E m)))); split; auto; [discriminate|intros [A|[_ A]]; [discriminate|contradiction]].
Qed.
Lemma find_first {A} (f : A -> bool) l c : find f l = Some c <-> exists b a, l = b ++ c :: a /\ f c = true /\ forall x, In x b -> f x = false.
Proof.
  split.
  - induction l as [|z l IH]; cbn; [discriminate|]. destruct (f z) eqn:Hz.
    + intros [= <-]. exists [], l. split; auto. split; auto. intros x [].
    + intros H. destruct (IH H) as (b & a & -> & Hc & Hb). exists (z :: b), a. split; auto. split; auto. intros x [<-|Hx]; auto.
  - intros (b & a & -> & Hc & Hb). induction b as [|z b IH]; cbn; [now rewrite Hc|]. rewrite (Hb z) by now left. apply IH. intros x Hx. apply Hb. now right.
Qed.
Lemma first_cover_iff cs m c : find (cover_matches E m) cs = Some c <-> first_cover E cs m c.
Proof.
  rewrite find_first. split; intros (b & a & H1 & H2 & H3); exists b, a; (split; [auto|]); (split; [now apply cover_matches_iff|]); intros z Hz.
  - intros Hc. apply cover_matches_iff in Hc. rewrite H3 in Hc; auto. discriminate.
  - destruct (cover_matches E m z) eqn:Hm; auto. apply cover_matches_iff in Hm. destruct (H3 z Hz Hm).
Qed.
Lemma cop_matches_iff m c : cop_matches E m c = true <-> cop_for E c m.
Proof.
  unfold cop_matches, cop_for. rewrite !andb_true_iff, Z.eqb_eq. assert (H : match cp_init c with None => false | Some _ => true end = true <-> cp_init c <> None) by (destruct (cp_init c); split; congruence).
  rewrite H. rewrite and_assoc. apply and_iff_compat_l. apply and_iff_compat_l. destruct (cp_mixin c) as [z|].
  - rewrite Nat.eqb_eq. split; [intros ->; auto|]. intros [[= ->]|[A _]]; auto; discriminate.
  - destruct (bytes_eqb_spec (cp_name c) (sv_bytes (m_name (e_mixin E m)))); split; auto; [discriminate|intros [A|[_ A]]; [discriminate|contradiction]].
Qed.
Lemma cop_inits_iff cs m k : (exists c, find (cop_matches E m) cs = Some c /\ cp_init c = Some k) <-> cop_inits E cs m k.
Proof.
  unfold cop_inits. split.
  - intros (c & Hf & Hk). apply find_first in Hf. destruct Hf as (b & a & H1 & H2 & H3). exists c, b, a. split; auto. split; [now apply cop_matches_iff|]. split; auto.
    intros z Hz Hc. apply cop_matches_iff in Hc. rewrite H3 in Hc; auto. discriminate.
  - intros (c & b & a & H1 & H2 & H3 & H4). exists c. split; auto. apply find_first. exists b, a. split; auto. split; [now apply cop_matches_iff|]. intros z Hz.
    destruct (cop_matches E m z) eqn:Hm; auto. apply cop_matches_iff in Hm. destruct (H3 z Hz Hm).
Qed.
Lemma map_mop_gives w d ops m k : op_gives E w d (map mop_of ops) m k <-> In (MAddInit k m) ops.
Proof.
  unfold op_gives. split.
  - intros (op & Hin & Hk & Hm). apply in_map_iff in Hin. destruct Hin as (z & <- & Hz). destruct z; cbn in *; try discriminate. injection Hk as ->. injection Hm as ->. auto.
  - intros Hin. exists (MInit k m). split; [|split; reflexivity]. change (MInit k m) with (mop_of (MAddInit k m)). now apply in_map.
Qed.

Lemma none_made s o q t aok f s1 res : type_of s o q t -> mutated_type E aok t f s = (s1, res) -> (forall r, res <> Ok r) -> forall r, ~ changed_type E s o aok f r.
Proof.
  intros T H Hn r (q' & t' & l & w & T' & Hf & Hg). destruct (type_of_fun _ _ _ _ _ _ T T') as [<- <-]. unfold mutated_type, bnd in H. rewrite Hf in H. unfold on_world in H. rewrite Hg in H. injection H as _ <-. exact (Hn r eq_refl).
Qed.
Lemma none_made_dry s o q t aok (f : lookup -> list mptr -> res (list mptr)) : type_of s o q t -> (forall l, f (get_mixin_by_name E (s_w s) (t_dom t)) (t_mixins t) <> Ok l) -> forall r, ~ changed_type E s o aok f r.
Proof. intros T H r (q' & t' & l & w & T' & Hf & Hg). destruct (type_of_fun _ _ _ _ _ _ T T') as [<- <-]. exact (H l Hf). Qed.

(** Every call that mutates an object *)
Theorem mutation_spec s op o unw s' res : Inv s -> typed s -> fair E s op -> mutates op = Some (o, unw) -> op_run E U op s = (s', res) ->
  Inv s' /\ typed s' /\
  match res with
  | Ok _ => (exists r l, aims_at E s op r /\ mutated E s s' o r (made_with E (inits E s op)) (updated_with (upds E op)) l) \/
      unw = true /\ exists ms l, failed E s s' o ms (made_with E (inits E s op)) (updated_with (upds E op)) l
  | Throw e => (exists ms l, failed E s s' o ms (made_with E (inits E s op)) (updated_with (upds E op)) l) /\
      ((forall r, ~ aims_at E s op r) \/ exists r, aims_at E s op r /\ may_throw E s s' o r (inits E s op) e)
  | Ub _ => False
  end.
Proof.
  intros I Ty F Hm Hr. assert (Hx : forall (r : tref) ov uv, result s s' o r unw ov uv res -> aims_at E s op r -> match res with
  | Ok _ => (exists r l, aims_at E s op r /\ mutated E s s' o r (made_with E ov) (updated_with uv) l) \/ unw = true /\ exists ms l, failed E s s' o ms (made_with E ov) (updated_with uv) l
  | Throw e => (exists ms l, failed E s s' o ms (made_with E ov) (updated_with uv) l) /\ ((forall r, ~ aims_at E s op r) \/ exists r, aims_at E s op r /\ may_throw E s s' o r ov e)
  | Ub _ => False
  end). { intros r ov uv H Ht. destruct res as [[]|e|u]; cbn in *; auto; [|destruct H; eauto]. destruct H as [(l & H)|H]; [left; eauto|auto]. }
  assert (Hfail : forall ov uv, s' = s -> match res with Throw _ => forall r, ~ aims_at E s op r | Ok _ => unw = true | Ub _ => False end -> match res with
  | Ok _ => (exists r l, aims_at E s op r /\ mutated E s s' o r (made_with E ov) (updated_with uv) l) \/ unw = true /\ exists ms l, failed E s s' o ms (made_with E ov) (updated_with uv) l
  | Throw e => (exists ms l, failed E s s' o ms (made_with E ov) (updated_with uv) l) /\ ((forall r, ~ aims_at E s op r) \/ exists r, aims_at E s op r /\ may_throw E s s' o r ov e)
  | Ub _ => False
  end). { intros ov uv -> H. destruct res as [[]|e|u]; auto; [right; split; auto|split; [|auto]]; exists [], []; apply failed_refl. }
  destruct op; cbn in Hm; try discriminate; injection Hm as -> ->; cbn in F, Hr.
  - destruct F as ((x & Ho & Hn) & Hb). destruct (act_reset E U AM s o x r unw I Ty Ho (fun _ => Hn) Hb) as (s2 & res2 & H1 & H2 & I2 & Ty2). rewrite Hr in H1. injection H1 as <- <-.
    split; auto. split; auto. eapply (Hx r); [|reflexivity]. cbn. eapply reset_result; eauto.
  - destruct F as ((x & Ho & Hn) & Hb & Hops). destruct (act_to E U AM s o x r ops unw I Ty Ho Hn Hb Hops) as (s2 & res2 & H1 & _ & H2 & I2 & Ty2). rewrite Hr in H1. injection H1 as <- <-.
    split; auto. split; auto. eapply (Hx r); [|reflexivity]. cbn. eapply to_result; eauto.
  - destruct F as ((x & Ho & Hn) & Hne & Hcan & Hfi). destruct (the_type_ok E s o x I Ty Ho Hn) as (q & t & Hq & Ht & _). assert (T : type_of s o q t) by (exists x; auto).
    destruct (act_mutate E U AM s o x q t ops unw aok I Ty Ho Hq Ht Hne Hcan Hfi) as (s1 & tres & s2 & res2 & Hmt & H1 & _ & H2 & I2 & Ty2). rewrite Hr in H1. injection H1 as <- <-. split; auto. split; auto.
    destruct H2 as [e Htr Hs1 Hs|r res Htr Hmd I1 Ty1 Ho1 Hto]; [apply Hfail; auto; cbn; eapply none_made; eauto; congruence|]. subst tres. eapply (Hx r); [|cbn; eapply made_target; eauto]. cbn.
    eapply view_result; [eapply made_view; eauto|auto|auto|exists x; auto|]. eapply weak_result; [| |eapply to_result; eauto]; [|tauto]. intros m k. split.
    + intros (d & _ & Hg). eapply map_mop_gives; eauto.
    + intros Hin. destruct (made_type E s _ s1 _ o x q t Hmd I Ty Ho Hq Ht) as [D1 D2]. exists (t_dom t). split; [exists q, t; split; auto; exists x; auto|]. now apply map_mop_gives.
  - destruct F as ((x & Ho & Hn) & Hcan). destruct (the_type_ok E s o x I Ty Ho Hn) as (q & t & Hq & Ht & _). assert (T : type_of s o q t) by (exists x; auto).
    destruct (act_gradual E U AM s o x q t ops unw aok I Ty Ho Hq Ht Hcan) as (s1 & tres & s2 & res2 & Hmt & H1 & Hub & H2 & I2 & Ty2). rewrite Hr in H1. injection H1 as <- <-. split; auto. split; auto.
    destruct H2 as [res Hu Hub2 Hs|e Hu Htr Hs1 Hs|r res Hu Htr Hmd I1 Ty1 Ho1 Hto]; [|apply Hfail; auto; cbn; eapply none_made; eauto; congruence|].
    + apply Hfail; auto. destruct res as [[]|e|u]; [auto| |destruct Hub; exact Logic.I]. cbn. eapply none_made_dry; eauto. subst unw s'.
      unfold gradual, bnd, get_obj in Hr. rewrite Ho in Hr. rewrite (the_type_step s x q t Hq Ht) in Hr. cbn in Hr. intros l Hl. rewrite Hl in Hr. discriminate.
    + subst tres unw. eapply (Hx r); [|cbn; eapply made_target; eauto]. cbn. eapply view_result; [eapply made_view; eauto|auto|auto|exists x; auto|]. eapply reset_result; eauto.
  - destruct F as ((x & Ho & Hn) & Hb & Hne). destruct (act_c_to E U AM s o x r cs unw I Ty Ho Hb Hne) as (s2 & res2 & t & H1 & Ht & Hf & H2 & I2 & Ty2). rewrite Hr in H1. injection H1 as <- <-.
    split; auto. split; auto. eapply (Hx r); [|reflexivity]. cbn. eapply ov_result; eauto; intros i m k Hi.
    + unfold cover_ov, cover_of, cover_inits. rewrite Hi. split.
      * destruct (find (cover_matches E m) cs) as [c|] eqn:Hfi; [|discriminate]. intros Hk. exists c. split; auto. now apply first_cover_iff.
      * intros (c & Hc & Hk). apply first_cover_iff in Hc. now rewrite Hc.
    + unfold cover_up, cover_of, cover_updates. rewrite Hi. split.
      * destruct (find (cover_matches E m) cs) as [c|] eqn:Hfi; [|discriminate]. intros Hk. exists c. split; auto. now apply first_cover_iff.
      * intros (c & Hc & Hk). apply first_cover_iff in Hc. now rewrite Hc.
  - destruct F as ((x & Ho & Hn) & Hcan). destruct (the_type_ok E s o x I Ty Ho Hn) as (q & t & Hq & Ht & _). assert (T : type_of s o q t) by (exists x; auto).
    destruct (act_c_mutate E U AM s o x q t cs unw aok I Ty Ho Hq Ht Hcan) as (s1 & tres & s2 & res2 & Hmt & H1 & Hub & H2 & I2 & Ty2). rewrite Hr in H1. injection H1 as <- <-. split; auto. split; auto.
    destruct H2 as [e Htr Hs1 Hs|r t1 res Htr Hmd I1 Ty1 Ho1 Ht1 Hf Hto]; [apply Hfail; auto; cbn; eapply none_made; eauto; congruence|]. subst tres. eapply (Hx r); [|cbn; eapply made_target; eauto]. cbn.
    eapply view_result; [eapply made_view; eauto|auto|auto|exists x; auto|]. eapply ov_result; eauto; intros i m k Hi.
    + unfold cop_ov. rewrite Hi, <- cop_inits_iff. split.
      * destruct (find (cop_matches E m) cs) as [c|] eqn:Hfi; [|discriminate]. intros Hk. exists c. auto.
      * intros (c & Hc & Hk). now rewrite Hc.
    + unfold none. split; [discriminate|intros []].
Qed.
End MT.
