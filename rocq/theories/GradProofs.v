(** Proofs about gradual mutations that live while other calls are made *)
From Coq Require Import List Arith ZArith NArith Lia Bool.
From Verif Require Import Base Sv SvProofs BaseLemmas Info TypeMut TypeBuild TypeQuery Domain ElemProofs TypesProofs SpecReg SpecDom HistProofs DomTheorems SpecList RuleTheorems3 SpecLayout Heap HeapProofs Mutation Object GradMut
  SpecObj SpecMut SpecLog SpecAct SpecAbs SpecSend SpecGrad PartProofs WorldProofs ObjProofs ActProofs ActProofs2 ActProofs3 MutProofs ObjTheorems10 AbsProofs AbsProofs2 SendProofs.
Import ListNotations.

Section Grad.
Variable E : env.
Variable U : user.
Hypothesis AM : aligned_mixins E.
Notation Inv := (Inv E).

(** ** The list *)
Lemma first_cut (P : mptr -> Prop) l : (forall x, P x \/ ~ P x) -> (forall x, In x l -> ~ P x) \/ exists l1 m l2, l = l1 ++ m :: l2 /\ (forall x, In x l1 -> ~ P x) /\ P m.
Proof.
  intros D. induction l as [|x l IH]; [left; intros x []|]. destruct (D x) as [Hx|Hx].
  - right. exists [], x, l. split; auto.
  - destruct IH as [IH|(l1 & m & l2 & -> & H1 & H2)].
    + left. intros y [<-|Hy]; auto.
    + right. exists (x :: l1), m, l2. split; auto. split; auto. intros y [<-|Hy]; auto.
Qed.
Lemma eq_cut (m : mptr) l : ~ In m l \/ exists l1 l2, l = l1 ++ m :: l2 /\ ~ In m l1.
Proof.
  destruct (first_cut (eq m) l) as [H|(l1 & x & l2 & H1 & H2 & <-)]; [intros x; destruct (Nat.eq_dec m x); auto|left; intros Hin; apply (H m Hin); auto|].
  right. exists l1, l2. split; auto. intros Hin. apply (H2 m Hin). auto.
Qed.
Lemma name_dec nm m : named E nm m \/ ~ named E nm m.
Proof. unfold named. destruct (list_eq_dec N.eq_dec (sv_bytes (m_name (e_mixin E m))) nm); auto. Qed.
Lemma edited w d op l : match apply_gop E (get_mixin_by_name E w d) op l with Ok l' => edit E w d op l l' | Throw e => edit_fails E w d op l e | Ub _ => False end.
Proof.
  assert (EQ : forall m l1 l2, l = l1 ++ m :: l2 -> ~ In m l1 -> first_out (eq m) l m (l1 ++ l2)).
  { intros m l1 l2 -> H. exists l1, l2. split; auto. split; auto. intros x Hx <-. auto. }
  assert (NM : forall nm m l1 l2, l = l1 ++ m :: l2 -> (forall x, In x l1 -> ~ named E nm x) -> named E nm m -> first_out (has_name E nm) l m (l1 ++ l2)).
  { intros nm m l1 l2 -> H Hm. exists l1, l2. auto. }
  assert (AN : forall nm, match tm_add_name (get_mixin_by_name E w d) nm l with Ok l' => exists m, get_mixin_by_name E w d nm = Some m /\ l' = l ++ [m] | Throw e => get_mixin_by_name E w d nm = None /\ e = EAddUnknown | Ub _ => False end).
  { intros nm. unfold tm_add_name, tm_add. destruct (get_mixin_by_name E w d nm) as [m|]; eauto. }
  destruct op as [op|m|nm]; cbn [apply_gop edit edit_fails].
  - destruct op as [m|nm|k m|m|nm|m|nm]; cbn [apply_mutop].
    + reflexivity.
    + apply AN.
    + reflexivity.
    + destruct (c32_remove m l) as [H1 H2]. destruct (eq_cut m l) as [Hn|(l1 & l2 & Hl & Hn)]; [rewrite (proj1 (H1 Hn)); auto|]. rewrite (proj1 (H2 _ _ Hl Hn)). right. cbn. auto.
    + destruct (c32_by_name E nm l) as [H1 H2]. destruct (first_cut _ l (name_dec nm)) as [Hn|(l1 & m & l2 & Hl & Hn & Hm)]; [rewrite (proj1 (proj2 (H1 Hn))); auto|].
      rewrite (proj1 (proj2 (H2 _ _ _ Hl Hn Hm))). right. exists m. cbn. auto.
    + destruct (c32_remove m l) as [H1 H2]. destruct (eq_cut m l) as [Hn|(l1 & l2 & Hl & Hn)]; [rewrite (proj2 (H1 Hn)); auto|]. rewrite (proj2 (H2 _ _ Hl Hn)). exists (l1 ++ l2). split; auto. now rewrite app_assoc.
    + destruct (c32_by_name E nm l) as [H1 H2]. destruct (first_cut _ l (name_dec nm)) as [Hn|(l1 & m & l2 & Hl & Hn & Hm)]; [rewrite (proj2 (proj2 (H1 Hn))); auto|].
      rewrite (proj2 (proj2 (H2 _ _ _ Hl Hn Hm))). exists m, (l1 ++ l2). split; auto. now rewrite app_assoc.
  - destruct (c32_add m l) as (_ & H1 & H2 & _). destruct (in_dec Nat.eq_dec m l) as [Hi|Hi]; [rewrite (H1 Hi)|rewrite (H2 Hi)]; auto.
  - destruct (c32_add_by_name E (get_mixin_by_name E w d) nm l) as (_ & _ & H1 & H2). destruct (first_cut _ l (name_dec nm)) as [Hn|(l1 & m & l2 & Hl & Hn & Hm)].
    + rewrite (proj1 (H2 Hn)). specialize (AN nm). destruct (tm_add_name (get_mixin_by_name E w d) nm l) as [l'|e|u]; auto.
    + assert (Hx : exists x, In x l /\ named E nm x) by (exists m; split; auto; rewrite Hl; apply in_or_app; right; now left). rewrite (proj1 (H1 Hx)). left. auto.
Qed.
Lemma call_run op g s g' r : gm_call E op g s = (g', r) -> gm_obj g' = gm_obj g /\ gm_dom g' = gm_dom g /\ gm_applied g' = gm_applied g /\
  match r with Ok _ => edit E (s_w s) (gm_dom g) op (gm_mixins g) (gm_mixins g') | Throw e => edit_fails E (s_w s) (gm_dom g) op (gm_mixins g) e /\ g' = g | Ub _ => False end.
Proof.
  unfold gm_call. pose proof (edited (s_w s) (gm_dom g) op (gm_mixins g)) as H. destruct (apply_gop E (get_mixin_by_name E (s_w s) (gm_dom g)) op (gm_mixins g)) as [l|e|u]; intros [= <- <-]; cbn; auto.
Qed.
Lemma new_run o s s' g : gm_new o s = (s', Ok g) -> s' = s /\ exists r t, type_of s o r t /\ gm_obj g = o /\ gm_dom g = t_dom t /\ gm_mixins g = t_mixins t /\ gm_applied g = false.
Proof.
  unfold gm_new, bnd, get_obj. destruct (s_obj s o) as [x|] eqn:Hx; [|discriminate]. unfold the_type. destruct (o_type x) as [r|] eqn:Hr; [|discriminate]. unfold bnd, get_ty.
  destruct (w_type (s_w s) r) as [t|] eqn:Ht; [|discriminate]. unfold ret. intros [= <- <-]. split; auto. exists r, t. cbn. split; auto. exists x. auto.
Qed.
Lemma new_ok o s r t : type_of s o r t -> gm_new o s = (s, Ok {| gm_obj := o; gm_dom := t_dom t; gm_mixins := t_mixins t; gm_applied := false |}).
Proof. intros H. unfold gm_new. rewrite (start s o r t _ H). reflexivity. Qed.

Lemma draft ok s g tr s' g' : grun E U ok s g tr s' g' -> drafting tr -> gm_obj g' = gm_obj g /\ gm_dom g' = gm_dom g /\ gm_applied g' = gm_applied g /\ drafted E U (gm_dom g) tr s (gm_mixins g) s' (gm_mixins g').
Proof.
  induction 1 as [|tr s1 g1 a r s2 g2 H IH Hok Hr Hu]; intros D; [split; auto; split; auto; split; auto; constructor|].
  destruct IH as (A & B & C & I); [intros a' r' Hin; apply (D a' r'), in_or_app; now left|].
  assert (Ha := D a r ltac:(apply in_or_app; right; now left)). destruct a as [op|unw aok junk| |op]; try contradiction; cbn [gact_run] in Hr.
  - destruct (gm_call E op g1 s1) as [g3 r3] eqn:Hc. injection Hr as <- <- <-. destruct (call_run _ _ _ _ _ Hc) as (A1 & A2 & A3 & A4). split; [congruence|]. split; [congruence|]. split; [congruence|].
    rewrite B in A4. destruct r3 as [[]|e|u]; [eapply dr_edit; eauto| |contradiction]. destruct A4 as [A4 ->]. eapply dr_fails; eauto.
  - destruct (op_run E U op s1) as [s3 r3] eqn:Hc. injection Hr as <- <- <-. split; auto. split; auto. split; auto. eapply dr_other; eauto.
Qed.
Lemma calls_obj ops : forall g s g' r, gm_calls E ops g s = (g', r) -> gm_obj g' = gm_obj g /\ gm_dom g' = gm_dom g /\ gm_applied g' = gm_applied g /\
  match r with
  | Ok _ => apply_gops E (get_mixin_by_name E (s_w s) (gm_dom g)) ops (gm_mixins g) = Ok (gm_mixins g')
  | Throw e => apply_gops E (get_mixin_by_name E (s_w s) (gm_dom g)) ops (gm_mixins g) = Throw e
  | Ub u => apply_gops E (get_mixin_by_name E (s_w s) (gm_dom g)) ops (gm_mixins g) = Ub u
  end.
Proof.
  induction ops as [|op ops IH]; intros g s g' r; cbn [gm_calls apply_gops].
  - intros [= <- <-]. auto.
  - unfold gm_call. destruct (apply_gop E (get_mixin_by_name E (s_w s) (gm_dom g)) op (gm_mixins g)) as [l|e|u]; [|intros [= <- <-]; cbn; auto|intros [= <- <-]; cbn; auto].
    intros H. apply IH in H. cbn in H. cbn. exact H.
Qed.

(** ** apply *)
Lemma commit_run unw aok g s r t : type_of s (gm_obj g) r t -> gm_commit E U unw aok g s =
  match get_type_mut E aok (s_w s) (t_dom t) (gm_dom g) (gm_mixins g) with
  | (w, Ok q) => reset_type E U unw (gm_obj g) q (set_w s w)
  | (w, Throw e) => (set_w s w, Throw e)
  | (w, Ub u) => (set_w s w, Ub u)
  end.
Proof. intros H. unfold gm_commit. rewrite (start s _ r t _ H). cbn [snd]. unfold bnd, on_world. destruct (get_type_mut E aok (s_w s) (t_dom t) (gm_dom g) (gm_mixins g)) as [w [q|e|u]]; reflexivity. Qed.
(** it makes two calls at most *)
Inductive committed (unw aok : bool) (g : gmut) (s : st) (d : dptr) : otrace -> st -> res unit -> Prop :=
| cm_throw e : fair E s (ODom (DGetTypeMut d (gm_dom g) (gm_mixins g) aok)) -> op_run E U (ODom (DGetTypeMut d (gm_dom g) (gm_mixins g) aok)) s = (s, Throw e) ->
    get_type_mut E aok (s_w s) d (gm_dom g) (gm_mixins g) = (s_w s, Throw e) -> committed unw aok g s d [(ODom (DGetTypeMut d (gm_dom g) (gm_mixins g) aok), Throw e)] s (Throw e)
| cm_to s1 q s2 res : fair E s (ODom (DGetTypeMut d (gm_dom g) (gm_mixins g) aok)) -> op_run E U (ODom (DGetTypeMut d (gm_dom g) (gm_mixins g) aok)) s = (s1, Ok tt) ->
    get_type_mut E aok (s_w s) d (gm_dom g) (gm_mixins g) = (s_w s1, Ok q) ->
    fair E s1 (OReset unw (gm_obj g) q) -> op_run E U (OReset unw (gm_obj g) q) s1 = (s2, res) -> ~ is_ub res ->
    committed unw aok g s d [(ODom (DGetTypeMut d (gm_dom g) (gm_mixins g) aok), Ok tt); (OReset unw (gm_obj g) q, res)] s2 res.
Lemma set_same s : set_w s (s_w s) = s.
Proof. now destruct s. Qed.
Lemma commit unw aok g s d s' res : Inv s -> typed s -> can_apply E s aok g -> object_domain s (gm_obj g) d -> gm_commit E U unw aok g s = (s', res) -> exists tr, committed unw aok g s d tr s' res.
Proof.
  intros I Ty (Hts & Hca) Hd Hr. destruct (Hca d Hd) as (Hub & Hsm). destruct Hd as (q0 & t & HT & <-). rewrite (commit_run _ _ _ _ _ _ HT) in Hr. set (d := t_dom t) in *. set (l := gm_mixins g) in *. set (dm := gm_dom g) in *.
  destruct (get_type_mut E aok (s_w s) d dm l) as [w1 tres] eqn:Hg. cbn [fst snd] in *.
  assert (Hrun : op_run E U (ODom (DGetTypeMut d dm l aok)) s = (set_w s w1, match tres with Ok _ => Ok tt | Throw e => Throw e | Ub u => Ub u end)).
  { cbn [op_run]. unfold bnd, on_world. cbn [dstep]. unfold retty. rewrite Hg. cbn. destruct tres; reflexivity. }
  assert (F : fair E s (ODom (DGetTypeMut d dm l aok))).
  { cbn [fair dstep]. unfold retty. rewrite Hg. cbn. split; auto. split; auto. now destruct tres. }
  destruct tres as [q|e|u]; [| |destruct Hub; exact Logic.I].
  - destruct (act_any E U AM s _ I Ty F) as (s1 & r1 & Hr1 & Hu1 & I1 & Ty1). rewrite Hrun in Hr1. injection Hr1 as <- <-.
    assert (Hdd : dm = d). { unfold get_type_mut in Hg. destruct (Nat.eqb_spec dm d); auto. discriminate. }
    assert (Hgt : get_type E aok (s_w s) d l = (w1, Ok q)). { rewrite <- get_type_mut_same. rewrite <- Hdd at 2. exact Hg. }
    destruct HT as (x & Ho & Hq & Ht).
    assert (Hse : same_elems (s_w s) w1) by (pose proof (same_elems_get_type_mut E aok (s_w s) d dm l) as K; rewrite Hg in K; exact K).
    assert (Hb : busy_same (s_w s) w1). { pose proof (get_type_busy E aok (s_w s) d l (iv_reach _ _ I)) as K. rewrite Hgt in K. exact K. }
    destruct (get_type_has_type E aok _ _ _ _ _ (iv_reach _ _ I) Hgt) as (t1 & Ht1 & Hd1).
    assert (Hdom : t_dom t1 = d).
    { pose proof (iv_reach _ _ I1) as R1. cbn in R1. destruct Hd1 as [->|Hin].
      - destruct (type_empty E w1 d R1) as (k & Hk). assert (t1 = set_nobj (empty_type d) k) as -> by congruence. reflexivity.
      - destruct (winv_reachable _ _ R1) as [_ HT]. destruct (ti_types _ _ HT _ _ Hin) as (n & t2 & _ & _ & Ht2 & Hok). assert (t2 = t1) as -> by congruence. apply Hok. }
    assert (Hm : made s d (set_w s w1) (Ok q)) by (apply md_ok with (t := t1); auto).
    assert (F2 : fair E (set_w s w1) (OReset unw (gm_obj g) q)).
    { cbn [fair]. split; [exact Hts|]. exact (made_becomes E s (gm_obj g) x q0 t (set_w s w1) q Hm I Ty Ho Hq Ht). }
    destruct (act_any E U AM _ _ I1 Ty1 F2) as (s2 & r2 & Hr2 & Hu2 & _ & _). assert (Hr2' := Hr2). cbn [op_run] in Hr2'. rewrite Hr in Hr2'. injection Hr2' as <- <-.
    eexists. eapply cm_to; eauto.
  - pose proof (c19_mut E _ _ _ _ _ _ _ Hg) as ->. rewrite set_same in *. injection Hr as <- <-. eexists. apply cm_throw; auto.
Qed.
Lemma committed_history unw aok g s d tr s' res tr0 : committed unw aok g s d tr s' res -> history E U tr0 s -> history E U (tr0 ++ tr) s'.
Proof.
  intros H Hh. destruct H as [e F R _|s1 q s2 res F R G F2 R2 Hu].
  - eapply or_snoc; eauto.
  - change [(ODom (DGetTypeMut d (gm_dom g) (gm_mixins g) aok), Ok tt); (OReset unw (gm_obj g) q, res)] with ([(ODom (DGetTypeMut d (gm_dom g) (gm_mixins g) aok), Ok tt)] ++ [(OReset unw (gm_obj g) q, res)]).
    rewrite app_assoc. eapply or_snoc; eauto. eapply or_snoc; eauto.
Qed.
Lemma committed_mine unw aok g s d tr s' res : committed unw aok g s d tr s' res -> forall x, In x tr -> by_mutation (gm_obj g) x.
Proof. intros H x. destruct H; cbn; intros [<-|Hx]; try (exact Logic.I); try contradiction. destruct Hx as [<-|[]]. reflexivity. Qed.
Lemma committed_applied unw aok g s d tr s' res : Inv s -> typed s -> committed unw aok g s d tr s' res -> applied E s (gm_obj g) d (gm_dom g) unw aok (gm_mixins g) s' res.
Proof.
  intros I Ty H. destruct H as [e F R G|s1 q s2 res F R G F2 R2 Hu].
  - split; auto.
  - destruct (act_any E U AM s _ I Ty F) as (s3 & r3 & Hr3 & Hu3 & I1 & Ty1). rewrite R in Hr3. injection Hr3 as <- <-.
    destruct (simulates E U AM s _ s1 _ I Ty F R) as [V1 _]. destruct (simulates E U AM s1 _ s2 _ I1 Ty1 F2 R2) as [V2 B].
    assert (V : forall o, look s1 o = look s o) by (intros o; apply V1; intros []). split.
    + intros o' Ho. rewrite <- V. apply V2. intros [K|[]]. auto.
    + destruct res as [[]|e|u]; [| |exact B].
      * cbn [effect] in B. destruct B as [(r & t & sl & l & l' & W & A1 & A2 & A3)|(Hw & sl & l & l' & A1 & A2 & A3)].
        -- left. cbn [wanted] in W. destruct W as [-> W]. exists (s_w s1), q, t, sl, l, l'. split; auto. split; auto. unfold is_view in *. rewrite V in A1. split; auto. split; auto.
           destruct A3 as [A3 A4]. split; auto. intros m v Hm _. apply A4; auto. intros (k & K). exact K.
        -- right. split; auto. exists sl, l, l'. unfold is_view in *. rewrite V in A1. split; auto. split; auto. destruct A3 as [A3 A4]. split; auto. intros m _. apply A4. intros (k & K). exact K.
      * cbn [no_effect] in B. now rewrite B, V.
Qed.
Lemma apply_run unw aok junk g s s' g' res : gm_apply E U unw aok junk g s = ((s', g'), res) -> gm_commit E U unw aok g s = (s', res) /\ gm_applied g' = true /\ gm_obj g' = gm_obj g /\ gm_dom g' = gm_dom g.
Proof. unfold gm_apply. destruct (gm_commit E U unw aok g s) as [s1 r1]. intros H. injection H as <- <- <-. auto. Qed.
Lemma has_domain s o : Inv s -> typed s -> with_type_set s o -> exists d, object_domain s o d.
Proof. intros I Ty (x & Hx & Hn). destruct (the_type_ok E s o x I Ty Hx Hn) as (r & t & Hr & Ht & _). exists (t_dom t), r, t. split; auto. exists x. auto. Qed.

Lemma applies unw aok junk g s d s' g' res : Inv s -> typed s -> can_apply E s aok g -> object_domain s (gm_obj g) d -> gm_apply E U unw aok junk g s = ((s', g'), res) ->
  gm_applied g' = true /\ applied E s (gm_obj g) d (gm_dom g) unw aok (gm_mixins g) s' res.
Proof. intros I Ty C D H. destruct (apply_run _ _ _ _ _ _ _ _ H) as (H1 & H2 & _). split; auto. destruct (commit _ _ _ _ _ _ _ I Ty C D H1) as (tr & K). eapply committed_applied; eauto. Qed.

Lemma apply_calls unw aok junk g s d s' g' res tr0 : Inv s -> typed s -> history E U tr0 s -> can_apply E s aok g -> object_domain s (gm_obj g) d -> gm_apply E U unw aok junk g s = ((s', g'), res) ->
  let get := ODom (DGetTypeMut d (gm_dom g) (gm_mixins g) aok) in
  (exists e, res = Throw e /\ s' = s /\ history E U (tr0 ++ [(get, Throw e)]) s') \/
  (exists q w, get_type_mut E aok (s_w s) d (gm_dom g) (gm_mixins g) = (w, Ok q) /\ history E U (tr0 ++ [(get, Ok tt); (OReset unw (gm_obj g) q, res)]) s').
Proof.
  intros I Ty Hh C D H get. destruct (apply_run _ _ _ _ _ _ _ _ H) as (H1 & _). destruct (commit _ _ _ _ _ _ _ I Ty C D H1) as (tr & K). pose proof (committed_history _ _ _ _ _ _ _ _ _ K Hh) as R.
  destruct K as [e F Re G|s1 q s2 res F Re G F2 R2 Hu]; [left; exists e; auto|right; exists q, (s_w s1); auto].
Qed.

Lemma run_object ok s g tr s' g' : grun E U ok s g tr s' g' -> gm_obj g' = gm_obj g /\ gm_dom g' = gm_dom g.
Proof.
  induction 1 as [|tr s1 g1 a r s2 g2 H IH Hok Hr Hu]; auto. destruct IH as [A B]. destruct a as [op|unw aok junk| |op]; cbn [gact_run] in Hr.
  - destruct (gm_call E op g1 s1) as [g3 r3] eqn:Hc. injection Hr as <- <- <-. destruct (call_run _ _ _ _ _ Hc) as (A1 & A2 & _). split; congruence.
  - destruct (apply_run _ _ _ _ _ _ _ _ Hr) as (_ & _ & C & D). split; congruence.
  - injection Hr as <- <- <-. auto.
  - destruct (op_run E U op s1) as [s3 r3]. injection Hr as <- <- <-. auto.
Qed.
Lemma histories s g tr s' g' : grun E U (gfair E) s g tr s' g' -> forall tr0, history E U tr0 s -> exists tr', history E U (tr0 ++ tr') s' /\ mixed (by_mutation (gm_obj g)) (other_calls tr) tr'.
Proof.
  intros H tr0 H0. induction H as [|tr s1 g1 a r s2 g2 H IH Hok Hr Hu]; [exists []; split; [now rewrite app_nil_r|constructor]|].
  destruct IH as (tr' & H1 & M). pose proof (run_object _ _ _ _ _ _ H) as (A & _). unfold other_calls. rewrite flat_map_app. fold (other_calls tr). destruct a as [op|unw aok junk| |op]; cbn [gact_run gfair flat_map fst snd app] in *.
  - destruct (gm_call E op g1 s1) as [g3 r3] eqn:Hc. injection Hr as <- <- <-. exists tr'. rewrite app_nil_r. auto.
  - destruct (apply_run _ _ _ _ _ _ _ _ Hr) as (Hc & _). destruct (history_inv E U AM _ _ H1) as [I Ty]. destruct (has_domain s1 (gm_obj g1) I Ty (proj1 Hok)) as (d & Hd).
    destruct (commit _ _ _ _ _ _ _ I Ty Hok Hd Hc) as (tr2 & K). exists (tr' ++ tr2). rewrite app_assoc, app_nil_r. split; [eapply committed_history; eauto|].
    apply mixed_app; auto. rewrite <- A. eapply committed_mine; eauto.
  - injection Hr as <- <- <-. exists tr'. rewrite app_nil_r. auto.
  - destruct (op_run E U op s1) as [s3 r3] eqn:Hc. injection Hr as <- <- <-. exists (tr' ++ [(op, r3)]). rewrite app_assoc. split; [eapply or_snoc; eauto|now apply mixed_own].
Qed.
Lemma over ok s g tr s' g' : grun E U ok s g tr s' g' -> (gm_applied g = true \/ exists a r, In (a, r) tr /\ match a with GaApply _ _ _ | GaCancel => True | _ => False end) -> gm_applied g' = true.
Proof.
  induction 1 as [|tr s1 g1 a r s2 g2 H IH Hok Hr Hu]; intros Hd; [destruct Hd as [Hd|(a & r & [] & _)]; auto|].
  assert (Hc : gm_applied g1 = true \/ match a with GaApply _ _ _ | GaCancel => True | _ => False end).
  { destruct Hd as [Hd|(a' & r' & Hin & Ha)]; [left; auto|]. apply in_app_or in Hin. destruct Hin as [Hin|[[= <- <-]|[]]]; [left; apply IH; right; eauto|right; auto]. }
  destruct a as [op|unw aok junk| |op]; cbn [gact_run] in Hr.
  - destruct (gm_call E op g1 s1) as [g3 r3] eqn:Hcl. injection Hr as <- <- <-. destruct (call_run _ _ _ _ _ Hcl) as (_ & _ & A & _). destruct Hc as [Hc|[]]. congruence.
  - apply (apply_run _ _ _ _ _ _ _ _ Hr).
  - now injection Hr as <- <- <-.
  - destruct (op_run E U op s1) as [s3 r3]. injection Hr as <- <- <-. destruct Hc as [Hc|[]]. auto.
Qed.
Lemma foreign s g unw aok junk d s' g' res : object_domain s (gm_obj g) d ->
  gm_apply E U unw aok junk g s = ((s', g'), res) -> gm_dom g <> d -> s' = s /\ gm_mixins g' = gm_mixins g /\ res = Throw EForeignMutation.
Proof.
  intros (r & t & HT & <-) H Hne. unfold gm_apply in H. assert (K : (let* x := get_obj (gm_obj g) in the_type x) s = (s, Ok (r, t))).
  { destruct HT as (x & A1 & A2 & A3). unfold bnd, get_obj. rewrite A1. unfold the_type. rewrite A2. unfold bnd, get_ty. now rewrite A3. }
  rewrite K, (commit_run _ _ _ _ _ _ HT) in H. cbn [snd] in H. unfold get_type_mut, gm_left in H.
  destruct (Nat.eqb_spec (gm_dom g) (t_dom t)); [contradiction|]. cbn in H. rewrite set_same in H. injection H as <- <- <-. auto.
Qed.
Lemma ends ok s g tr s' g' unw aok junk : grun E U ok s g tr s' g' ->
  (unw = true \/ (exists a r, In (a, r) tr /\ match a with GaApply _ _ _ | GaCancel => True | _ => False end) -> gm_end E U unw aok junk g' s' = ((s', g'), Ok tt)) /\
  (unw = false -> gm_applied g = false -> drafting tr -> gm_end E U unw aok junk g' s' = gm_apply E U unw aok junk g' s').
Proof.
  intros H. unfold gm_end. split.
  - intros [->|Hx]; auto. destruct unw; auto. rewrite (over _ _ _ _ _ _ H); auto.
  - intros -> Ha D. destruct (draft _ _ _ _ _ _ H D) as (_ & _ & C & _). now rewrite C, Ha.
Qed.

(** ** Without other calls *)
Lemma in_one_go unw aok junk o ops s r t g g' res : type_of s o r t -> gm_new o s = (s, Ok g) -> gm_calls E ops g s = (g', res) ->
  match res with
  | Ok _ => exists g2, gm_end E U unw aok junk g' s = ((fst (op_run E U (OGradual unw aok o ops) s), g2), snd (op_run E U (OGradual unw aok o ops) s))
  | Throw e => op_run E U (OGradual unw aok o ops) s = (s, Throw e)
  | Ub _ => False
  end.
Proof.
  intros HT Hn Hc. pose proof HT as HT0. rewrite (new_ok o s r t HT) in Hn. injection Hn as <-. destruct (calls_obj _ _ _ _ _ Hc) as (A & B & C & D). cbn in A, B, C, D. cbn [op_run]. unfold gradual. rewrite (start s o r t _ HT). cbn [snd].
  assert (Hnub : forall u, res <> Ub u).
  { clear -Hc. revert Hc. generalize {| gm_obj := o; gm_dom := t_dom t; gm_mixins := t_mixins t; gm_applied := false |}. induction ops as [|op ops IH]; intros g; cbn [gm_calls].
    - intros [= <- <-] u. discriminate.
    - destruct (gm_call E op g s) as [g1 [[]|e|u]] eqn:H1; [apply IH|intros [= <- <-] u; discriminate|]. destruct (call_run _ _ _ _ _ H1) as (_ & _ & _ & []). }
  destruct res as [[]|e|u]; [| |exact (Hnub u eq_refl)].
  - destruct unw.
    + cbn [gm_end]. rewrite D. cbn. eauto.
    + unfold gm_end. rewrite C. unfold gm_apply. unfold mutated_type. rewrite <- A in HT. rewrite (commit_run false aok g' s r t HT). unfold bnd, on_world. rewrite D, B, A. cbn [fst snd].
      destruct (get_type_mut E aok (s_w s) (t_dom t) (t_dom t) (gm_mixins g')) as [w [q|e|u]]; cbn [fst snd]; [|eauto|eauto]. destruct (reset_type E U false o q (set_w s w)) as [s2 r2]. cbn. eauto.
  - destruct unw; [now rewrite D|]. unfold mutated_type, bnd. now rewrite D.
Qed.
End Grad.
Lemma views_see s o sl l m : look s o = Some {| v_sealed := sl; v_mixins := Some l |} -> In m (mixins l) -> sees (look s) o m.
Proof. intros H Hm. exists sl, l. auto. Qed.
Lemma views_lack s o sl l m : look s o = Some {| v_sealed := sl; v_mixins := Some l |} -> ~ In m (mixins l) -> ~ sees (look s) o m.
Proof. intros H Hm (sl' & l' & A & B). unfold is_view in A. rewrite H in A. injection A as _ <-. auto. Qed.
