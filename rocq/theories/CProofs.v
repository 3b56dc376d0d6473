(** Proofs about the C interface *)
From Coq Require Import List Arith ZArith NArith Lia Bool.
From Verif Require Import Base Sv Info Registry RegistryProofs TypeMut Rules TypeBuild TypeQuery Domain ElemProofs SpecReg HistProofs Heap Mutation Object SpecObj
  SpecLayout ObjProofs ActProofs ActProofs3 HonestProofs CApi SpecC.
Import ListNotations.

Section C.
Variable E : env.
Variable U : user.

Ltac nofail := unfold failure; intuition discriminate.

Lemma guarded_spec c op good bad c' out : ~ failure good -> failure bad -> guarded E U c op good bad = (c', out) ->
  exists r, op_run E U op (cs_s c) = (cs_s c', r) /\ reports out r /\ cs_tm c' = cs_tm c /\ forall e, out <> CEscape e.
Proof.
  intros G B. unfold guarded. destruct (op_run E U op (cs_s c)) as [s' [[]|e|u]]; intros H; injection H as <- <-; cbn; eexists; (split; [reflexivity|]).
  - split; [exists good; auto|]. split; [auto|intros; discriminate].
  - split; [left; exists bad; auto|]. split; [auto|intros; discriminate].
  - split; [reflexivity|]. split; [auto|intros; discriminate].
Qed.
Lemma unguarded_spec c op good c' out : ~ failure good -> unguarded E U c op good = (c', out) ->
  exists r, op_run E U op (cs_s c) = (cs_s c', r) /\ reports out r /\ cs_tm c' = cs_tm c /\ forall e, (out = CEscape e <-> r = Throw e).
Proof.
  intros G. unfold unguarded. destruct (op_run E U op (cs_s c)) as [s' [[]|e|u]]; intros H; injection H as <- <-; cbn; eexists; (split; [reflexivity|]).
  - split; [exists good; auto|]. split; [auto|split; discriminate].
  - split; [right; auto|]. split; [auto|intros e'; split; intros X; injection X as ->; reflexivity].
  - split; [reflexivity|]. split; [auto|split; discriminate].
Qed.
Lemma op_run_dom op s : op_run E U (ODom op) s = (set_w s (fst (dstep E (s_w s) op)), match snd (dstep E (s_w s) op) with Ok _ => Ok tt | Throw e => Throw e | Ub u => Ub u end).
Proof. cbn [op_run]. unfold bnd, on_world, ret. cbn [fst snd]. destruct (snd (dstep E (s_w s) op)); reflexivity. Qed.
Lemma guarded_type_spec c op c' out : (forall w, snd (dstep E w op) <> Ok None) -> guarded_type E c op = (c', out) ->
  exists r, op_run E U (ODom op) (cs_s c) = (cs_s c', r) /\ reports out r /\ cs_tm c' = cs_tm c /\ forall e, out <> CEscape e.
Proof.
  intros G. specialize (G (s_w (cs_s c))). unfold guarded_type. rewrite op_run_dom. destruct (dstep E (s_w (cs_s c)) op) as [w [t|e|u]]; cbn [fst snd] in *; intros H; injection H as <- <-; cbn; eexists; (split; [reflexivity|]).
  - split; [exists (CType t); split; [auto|]|split; [auto|intros; discriminate]]. destruct t; [nofail|congruence].
  - split; [left; exists (CType None); split; [auto|nofail]|split; [auto|intros; discriminate]].
  - split; [reflexivity|]. split; [auto|intros; discriminate].
Qed.
Lemma get_type_some w d q a : snd (dstep E w (DGetType d q a)) <> Ok None.
Proof. cbn. unfold retty. destruct (get_type E a w d q) as [w' [r|e|u]]; cbn; discriminate. Qed.
Lemma get_type_mut_some w d dm q a : snd (dstep E w (DGetTypeMut d dm q a)) <> Ok None.
Proof. cbn. unfold retty. destruct (get_type_mut E a w d dm q) as [w' [r|e|u]]; cbn; discriminate. Qed.

Lemma tm_other (c : cstate) h v h' : h' <> h -> cs_tm (with_tm c h v) h' = cs_tm c h'.
Proof. intros H. cbn. unfold upd. destruct (Nat.eqb_spec h' h); congruence. Qed.
Lemma on_tm_spec c h f c' out : on_tm c h f = (c', out) -> cs_s c' = cs_s c /\ (forall h', h' <> h -> cs_tm c' h' = cs_tm c h') /\ forall e, out <> CEscape e.
Proof.
  unfold on_tm. destruct (cs_tm c h) as [[d l]|]; [destruct (f l) as [l' v]|]; intros H; injection H as <- <-; (split; [reflexivity|split; [|intros; discriminate]]); auto.
  intros h' Hh. now apply tm_other.
Qed.

(** Everything about one call *)
Lemma c_run_spec c x c' out : c_run E U c x = (c', out) ->
  match cpp_of c x with
  | Some op => exists r, op_run E U op (cs_s c) = (cs_s c', r) /\ reports out r
  | None => cs_s c' = cs_s c /\ forall e, out <> CEscape e
  end /\ forall h, mutation_of x <> Some h -> cs_tm c' h = cs_tm c h.
Proof.
  destruct x; cbn [c_run cpp_of mutation_of]; intros H;
    try (apply on_tm_spec in H as (A & B & C); split; [auto|intros h' Hh; apply B; congruence]).
  all: try (apply guarded_spec in H as (rr & A & B & C & _); [split; [eauto|intros; now rewrite C]|nofail|nofail]).
  all: try (apply unguarded_spec in H as (rr & A & B & C & _); [split; [eauto|intros; now rewrite C]|nofail]).
  - destruct nok; [|injection H as <- <-; split; [split; [auto|intros; discriminate]|auto]].
    apply guarded_spec in H as (rr & A & B & C & _); [split; [eauto|intros; now rewrite C]|nofail|nofail].
  - destruct nok; [|injection H as <- <-; split; [split; [auto|intros; discriminate]|auto]].
    apply guarded_spec in H as (rr & A & B & C & _); [split; [eauto|intros; now rewrite C]|nofail|nofail].
  - destruct nok; [|injection H as <- <-; split; [split; [auto|intros; discriminate]|auto]].
    apply guarded_spec in H as (rr & A & B & C & _); [split; [eauto|intros; now rewrite C]|nofail|nofail].
  - destruct nok; [|injection H as <- <-; split; [split; [auto|intros; discriminate]|auto]].
    apply guarded_spec in H as (rr & A & B & C & _); [split; [eauto|intros; now rewrite C]|nofail|nofail].
  - destruct (s_obj (cs_s c) o) as [y|] eqn:O; [|injection H as <- <-; split; [split; [auto|intros; discriminate]|auto]].
    destruct (o_sealed y); [injection H as <- <-; split; [split; [auto|intros; discriminate]|auto]|].
    apply unguarded_spec in H as (rr & A & B & C & _); [split; [eauto|intros; now rewrite C]|nofail].
  - destruct t as [t|].
    + apply guarded_spec in H as (rr & A & B & C & _); [split; [eauto|intros; now rewrite C]|nofail|nofail].
    + apply unguarded_spec in H as (rr & A & B & C & _); [split; [eauto|intros; now rewrite C]|nofail].
  - destruct (compare E U (cs_s c) o other) as [z|e|u]; injection H as <- <-; split; auto; split; auto; intros; discriminate.
  - destruct (w_type (s_w (cs_s c)) t) as [ty|]; [|injection H as <- <-; split; auto; split; auto; intros; discriminate].
    destruct (TypeQuery.is_of E ty _) as [z|e|u]; injection H as <- <-; split; auto; split; auto; intros; discriminate.
  - apply guarded_type_spec in H as (rr & A & B & C & _); [split; [eauto|intros; now rewrite C]|intros; apply get_type_some].
  - destruct (cs_tm c h) as [[dm q]|] eqn:T; [|injection H as <- <-; split; auto; split; auto; intros; discriminate].
    apply guarded_type_spec in H as (rr & A & B & C & _); [|intros; apply get_type_mut_some]. split; [eauto|]. intros h' Hh. rewrite C. apply tm_other. congruence.
  - destruct nok; injection H as <- <-; (split; [split; [auto|intros; discriminate]|]); auto. intros h' Hh. apply tm_other. congruence.
  - destruct (w_type (s_w (cs_s c)) t) as [ty|]; [|injection H as <- <-; split; auto; split; auto; intros; discriminate].
    destruct nok; injection H as <- <-; (split; [split; [auto|intros; discriminate]|]); auto. intros h' Hh. apply tm_other. congruence.
  - destruct (cs_tm c h) as [v|]; injection H as <- <-; (split; [split; [auto|intros; discriminate]|]); auto. intros h' Hh. apply tm_other. congruence.
Qed.

Lemma c70_same c x c' out : c_run E U c x = (c', out) ->
  match cpp_of c x with
  | Some op => exists r, op_run E U op (cs_s c) = (cs_s c', r) /\ reports out r
  | None => cs_s c' = cs_s c /\ forall e, out <> CEscape e
  end.
Proof. intros H. apply (c_run_spec _ _ _ _ H). Qed.

Lemma c70_mutations c x c' out : c_run E U c x = (c', out) ->
  (forall h, mutation_of x <> Some h -> cs_tm c' h = cs_tm c h) /\
  (forall aok d h, x = CGetType aok d h -> cs_tm c' h = None) /\
  (forall aok d h dm q, x = CGetType aok d h -> cs_tm c h = Some (dm, q) -> forall t,
     out = CRet (CType (Some t)) <-> dstep E (s_w (cs_s c)) (DGetTypeMut d dm q aok) = (s_w (cs_s c'), Ok (Some t))).
Proof.
  intros H. split; [apply (c_run_spec _ _ _ _ H)|]. split.
  - intros aok d h ->. cbn [c_run] in H. destruct (cs_tm c h) as [[dm q]|] eqn:T; [|injection H as <- <-; auto].
    apply guarded_type_spec in H as (rr & A & B & C & _); [|intros; apply get_type_mut_some]. rewrite C. cbn. unfold upd. now rewrite Nat.eqb_refl.
  - intros aok d h dm q -> T t. cbn [c_run] in H. rewrite T in H. unfold guarded_type in H.
    destruct (dstep E (s_w (cs_s (with_tm c h None))) (DGetTypeMut d dm q aok)) as [w [r|e|u]] eqn:D; injection H as <- <-; cbn [with_tm cs_s] in D; rewrite D; cbn; split; intros X.
    + injection X as ->. reflexivity.
    + congruence.
    + discriminate X.
    + congruence.
    + discriminate X.
    + congruence.
Qed.

Lemma c70_history tr c : c_hist E U (c_fair E) tr c -> exists tr', history E U tr' (cs_s c).
Proof.
  induction 1 as [|tr c x v c' H [tr' IH] F R]; [exists []; constructor|]. pose proof (c70_same _ _ _ _ R) as S.
  destruct (cpp_of c x) as [op|] eqn:C.
  - destruct S as (r & A & B). exists (tr' ++ [(op, r)]). apply (or_snoc _ _ _ _ _ _ _ _ IH (F _ C) A). intros X. destruct r as [|e|u]; cbn in *; try contradiction. discriminate B.
  - destruct S as [S _]. rewrite S. eauto.
Qed.

Lemma clear_throw o s s' e : clear E o s = (s', Throw e) -> exists y, s_obj s o = Some y /\ o_sealed y = true.
Proof.
  unfold clear, bnd. destruct (get_obj o s) as [s1 [x|e1|u]] eqn:G; [|exfalso; exact (nt_get_obj _ _ _ _ G)|discriminate]. unfold get_obj in G. destruct (s_obj s o) as [y|] eqn:O; [|discriminate G]. injection G as <- <-.
  destruct (the_type y s) as [s2 [rt|e1|u]] eqn:T; [|exfalso; exact (nt_the_type _ _ _ _ T)|discriminate].
  destruct (o_sealed y) eqn:S; [eauto|]. intros H. exfalso.
  assert (X : nt (clear_mixin_data E o;; mod_obj o (fun x => with_otype x (Some (TEmpty (t_dom (snd rt))))))).
  { apply nt_bnd; [|intros; apply nt_mod]. pose proof (nt_dtor E o) as D. intros a b e' Q. unfold obj_dtor, nt, bnd in D. apply (D a b e'). now rewrite Q. }
  exact (X _ _ _ H).
Qed.

Lemma dom_throw op s s' e : op_run E U (ODom op) s = (s', Throw e) <-> s' = set_w s (fst (dstep E (s_w s) op)) /\ snd (dstep E (s_w s) op) = Throw e.
Proof.
  rewrite op_run_dom. destruct (dstep E (s_w s) op) as [w [a|e1|u]]; cbn; split.
  - discriminate.
  - intros [_ H]. discriminate H.
  - intros H. injection H as <- <-. auto.
  - intros [-> H]. now injection H as ->.
  - discriminate.
  - intros [_ H]. discriminate H.
Qed.

Lemma unreg_feature_throws w d f : EInv E w -> (exists e, snd (dstep E w (DUnregFeature d f)) = Throw e) <-> ~ In (Some f) (d_features (w_dom w d)).
Proof.
  intros I0. cbn [dstep]. unfold forget, unregister_feature. destruct (basic_unregister (w_fid w) (d_features (w_dom w d)) f) as [sp|e|u] eqn:B; cbn [fst snd].
  - split; [intros [e H]; discriminate H|]. intros H. exfalso. apply H. apply basic_unregister_ok in B as (i & _ & B & _). exact (nth_error_In _ _ B).
  - split; [|eauto]. intros _ H. apply In_nth_error in H as [i Hi]. exact (basic_unregister_throw _ _ _ _ B i (ei_f1 E w I0 _ _ _ Hi) Hi).
  - exfalso. apply (basic_unregister_not_ub (w_fid w) (d_features (w_dom w d)) f). rewrite B. exact I.
Qed.
Lemma unreg_mixin_throws w d m : EInv E w -> ~ is_ub (snd (dstep E w (DUnregMixin d m))) -> (exists e, snd (dstep E w (DUnregMixin d m)) = Throw e) <-> w_mdom w m <> Some d.
Proof.
  intros I0. cbn [dstep]. unfold forget. destruct (unregister_mixin w d m) as [w' r] eqn:R. intros N.
  destruct (unregister_mixin_cases E w d m w' r I0 R) as [(w1 & id & _ & -> & A & B & _)|[(-> & _ & A)|[A _]]]; cbn [fst snd] in *.
  - split; [intros [e H]; discriminate H|]. intros H. exfalso. apply H. apply (ei_m1 E w I0 _ _ _ B).
  - split; eauto.
  - destruct r; contradiction.
Qed.
Lemma decr_not_throw r l e : rules_decr E r l <> Throw e.
Proof.
  induction l as [|[k c] l IH]; cbn; [discriminate|]. destruct (rule_less E k r).
  - destruct (rules_decr E r l) as [x|e'|u]; cbn; congruence.
  - destruct (rule_less E r k); [discriminate|]. destruct c as [|[|c]]; discriminate.
Qed.
Lemma never_throws w op : match op with DUnregTc _ _ | DRemRule _ _ | DGc _ => True | _ => False end -> forall e, snd (dstep E w op) <> Throw e.
Proof.
  destruct op; intros []; intros e0; cbn [dstep]; unfold forget; cbn [snd].
  - cbn. discriminate.
  - unfold remove_rule. destruct (rules_decr E r (d_rules (w_dom w d))) as [[l b]|e|u] eqn:R; cbn; try discriminate. exfalso. exact (decr_not_throw _ _ _ R).
  - unfold gc. destruct (existsb _ _); cbn; discriminate.
Qed.

Lemma c69 tr c x : aligned_mixins E -> c_hist E U (c_fair E) tr c -> c_fair E c x -> ((exists c' e, c_run E U c x = (c', CEscape e)) <-> lets_out c x).
Proof.
  intros AM H F. destruct (c70_history _ _ H) as [tr' HH]. destruct (history_inv E U AM _ _ HH) as [IV TY]. pose proof (einv_reachable E _ (iv_reach E _ IV)) as EI.
  assert (Un : forall op good, ~ failure good -> ((exists c' e, unguarded E U c op good = (c', CEscape e)) <-> exists s' e, op_run E U op (cs_s c) = (s', Throw e))).
  { intros op good G. split.
    - intros (c' & e & R). destruct (unguarded_spec _ _ _ _ _ G R) as (r & A & _ & _ & B). exists (cs_s c'), e. rewrite A. f_equal. now apply B.
    - intros (s' & e & R). unfold unguarded. rewrite R. eauto. }
  assert (Gu : forall op good bad, ~ failure good -> failure bad -> ((exists c' e, guarded E U c op good bad = (c', CEscape e)) <-> False)).
  { intros op good bad G B. split; [|intros []]. intros (c' & e & R). destruct (guarded_spec _ _ _ _ _ _ G B R) as (r & _ & _ & _ & X). now apply (X e). }
  assert (Ud : forall op good, ~ failure good -> ((exists c' e, unguarded E U c (ODom op) good = (c', CEscape e)) <-> exists e, snd (dstep E (s_w (cs_s c)) op) = Throw e)).
  { intros op good G. rewrite (Un _ _ G). split.
    - intros (s' & e & R). apply dom_throw in R as [_ R]. eauto.
    - intros (e & R). do 2 eexists. apply dom_throw. eauto. }
  assert (No : forall v, (exists (c' : cstate) e, (c, CRet v) = (c', CEscape e)) <-> False) by (intros v; split; [intros (? & ? & X); discriminate X|intros []]).
  destruct x; cbn [c_run lets_out];
    try (apply Gu; nofail);
    try (split; [|intros []]; intros (c' & e & R); apply on_tm_spec in R as (_ & _ & R); now apply (R e)).
  - destruct nok; [apply Gu; nofail|apply No].
  - destruct nok; [apply Gu; nofail|apply No].
  - destruct nok; [apply Gu; nofail|apply No].
  - destruct nok; [apply Gu; nofail|apply No].
  - rewrite Un by nofail. split; [|intros []]. intros (s' & e & R). exact (nt_dtor E o _ _ _ R).
  - destruct (s_obj (cs_s c) o) as [y|] eqn:O; [|split; [intros (? & ? & X); discriminate X|intros []]]. destruct (o_sealed y) eqn:S; [apply No|].
    rewrite Un by nofail. split; [|intros []]. intros (s' & e & R). destruct (clear_throw _ _ _ _ R) as (y' & A & B). congruence.
  - destruct t as [t|]; [apply Gu; nofail|]. rewrite Un by nofail. split.
    + intros (s' & e & R). exact (clear_throw _ _ _ _ R).
    + intros (y & O & S). cbn [op_run]. unfold clear, bnd, get_obj. rewrite O. pose proof (F _ eq_refl) as Fo. cbn [fair] in Fo.
      destruct (the_type y (cs_s c)) as [s2 [rt|e|u]] eqn:T.
      * rewrite S. unfold raise. eauto.
      * exfalso. exact (nt_the_type _ _ _ _ T).
      * exfalso. destruct Fo as (y' & O' & T'). rewrite O in O'. injection O' as <-. unfold the_type in T.
        destruct (o_type y) as [r|] eqn:Ty; [|congruence]. pose proof (type_alive E _ _ _ _ IV TY O Ty) as W. unfold bnd, get_ty in T. destruct (w_type (s_w (cs_s c)) r); [discriminate T|congruence].
  - rewrite Un by nofail. split; [|intros []]. intros (s' & e & R). exact (nt_mod _ _ _ _ _ R).
  - destruct (compare E U (cs_s c) o other) as [z|e|u]; [apply No|apply No|]. split; [intros (? & ? & X); discriminate X|intros []].
  - split; [|intros []]. destruct (w_type (s_w (cs_s c)) t) as [ty|]; [|intros (? & ? & X); discriminate X]. destruct (TypeQuery.is_of E ty _) as [z|e|u]; intros (? & ? & X); discriminate X.
  - rewrite Ud by nofail. exact (unreg_feature_throws _ _ _ EI).
  - rewrite Ud by nofail. apply (unreg_mixin_throws _ _ _ EI). apply (F _ eq_refl).
  - rewrite Ud by nofail. split; [|intros []]. intros [e X]. exact (never_throws _ (DUnregTc d c0) Logic.I _ X).
  - rewrite Ud by nofail. split; [|intros []]. intros [e X]. exact (never_throws _ (DRemRule d r) Logic.I _ X).
  - split; [|intros []]. intros (c' & e & R). apply guarded_type_spec in R as (r & _ & _ & _ & R); [now apply (R e)|intros; apply get_type_some].
  - split; [|intros []]. destruct (cs_tm c h) as [[dm q]|]; [|intros (? & ? & X); discriminate X]. intros (c' & e & R). apply guarded_type_spec in R as (r & _ & _ & _ & R); [now apply (R e)|intros; apply get_type_mut_some].
  - rewrite Ud by nofail. split; [|intros []]. intros [e X]. exact (never_throws _ (DGc d) Logic.I _ X).
  - split; [|intros []]. destruct nok; intros (? & ? & X); discriminate X.
  - split; [|intros []]. destruct (w_type (s_w (cs_s c)) t); [destruct nok|]; intros (? & ? & X); discriminate X.
  - split; [|intros []]. destruct (cs_tm c h); intros (? & ? & X); discriminate X.
Qed.
End C.
