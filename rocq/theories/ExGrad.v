(** A checker of the contracts for programs with a gradual mutation, used by the examples beside the theorems. Not part of
    the model. *)
From Coq Require Import List Arith ZArith NArith Lia Bool.
From Verif Require Import Base Sv BaseLemmas Info TypeBuild TypeQuery MixinInfo Domain SpecReg SpecLayout HistProofs Heap Mutation Object GradMut SpecObj SpecMut SpecAct SpecAbs SpecSend SpecGrad
  ObjProofs ActProofs3 GradProofs ExEnv ExObj.
Import ListNotations.

Section ExGrad.
Variable E : env.
Variable U : user.
Hypothesis AM : aligned_mixins E.
Definition applyb (s : st) (aok : bool) (g : gmut) : bool :=
  typedb s (gm_obj g) && match recb s (gm_obj g) with Some (_, t) => fairb E s (ODom (DGetTypeMut (t_dom t) (gm_dom g) (gm_mixins g) aok)) | None => false end.
Definition gfairb (s : st) (g : gmut) (a : gact) : bool :=
  match a with GaCall _ | GaCancel => true | GaApply _ aok _ => applyb s aok g | GaOther op => fairb E s op end.
Lemma applyb_ok s aok g : reachable E (s_w s) -> applyb s aok g = true -> can_apply E s aok g.
Proof.
  intros R H. unfold applyb in H. apply andb_true_iff in H. destruct H as [H1 H2]. split; [now apply typedb_ok|]. intros d (r & t & HT & <-). rewrite (recb_of _ _ _ _ HT) in H2.
  apply (fairb_ok E s _ R) in H2. cbn [fair dstep] in H2. destruct H2 as (_ & H2 & H3). unfold retty in *. destruct (get_type_mut E aok (s_w s) (t_dom t) (gm_dom g) (gm_mixins g)) as [w [q|e|u]]; cbn in *; auto.
Qed.
Lemma gfairb_ok s g a : reachable E (s_w s) -> gfairb s g a = true -> gfair E s g a.
Proof. intros R. destruct a; cbn; auto; [apply applyb_ok; auto|apply fairb_ok; auto]. Qed.
Fixpoint gexec (acts : list gact) (s : st) (g : gmut) : (st * gmut) * list (gact * res unit) * bool :=
  match acts with
  | [] => ((s, g), [], true)
  | a :: l => let '((s1, g1), r) := gact_run E U a g s in let '(x, tr, ok) := gexec l s1 g1 in (x, (a, r) :: tr, gfairb s g a && notub r && ok)
  end.
Lemma gexec_run tr0 s0 g0 acts : history E U tr0 s0 -> forall tr s g, grun E U (gfair E) s0 g0 tr s g -> snd (gexec acts s g) = true ->
  grun E U (gfair E) s0 g0 (tr ++ snd (fst (gexec acts s g))) (fst (fst (fst (gexec acts s g)))) (snd (fst (fst (gexec acts s g)))).
Proof.
  intros H. induction acts as [|a acts IH]; intros tr s g Hg Hok; cbn [gexec] in *.
  - cbn. now rewrite app_nil_r.
  - destruct (gact_run E U a g s) as [[s1 g1] r] eqn:Hr. specialize (IH (tr ++ [(a, r)]) s1 g1). destruct (gexec acts s1 g1) as [[[s2 g2] tr2] ok]. cbn [fst snd] in *. rewrite !andb_true_iff in Hok. destruct Hok as [[Hf Hu] Hok].
    rewrite <- app_assoc in IH. apply IH; auto. eapply gr_snoc; eauto; [|destruct r; [auto|auto|discriminate]]. destruct (histories E U AM s0 g0 tr s g Hg tr0 H) as (tr' & H' & _).
    apply gfairb_ok; auto. apply (iv_reach _ _ (proj1 (history_inv E U AM _ s H'))).
Qed.
End ExGrad.

(** A gradual mutation of object 1 *)
Definition gr_start : gmut := {| gm_obj := 1; gm_dom := 0; gm_mixins := [0; 1]; gm_applied := false |}.
Definition gr_exec (acts : list gact) := gexec ob_env (ob_user []) acts (ob_st [] []) gr_start.
Definition gr_st (acts : list gact) : st := fst (fst (fst (gr_exec acts))).
Definition gr_mut (acts : list gact) : gmut := snd (fst (fst (gr_exec acts))).
Definition gr_trace (acts : list gact) : list (gact * res unit) := snd (fst (gr_exec acts)).
Lemma gr_run acts : ob_fine [] [] = true -> snd (gr_exec acts) = true -> grun ob_env (ob_user []) (gfair ob_env) (ob_st [] []) gr_start (gr_trace acts) (gr_st acts) (gr_mut acts).
Proof. intros H H1. exact (gexec_run ob_env (ob_user []) ob_aligned _ _ gr_start acts (ob_history [] [] H) [] _ _ (gr_nil _ _ _ _ _) H1). Qed.
Lemma gr_can acts aok : ob_fine [] [] = true -> snd (gr_exec acts) = true -> applyb ob_env (gr_st acts) aok (gr_mut acts) = true -> can_apply ob_env (gr_st acts) aok (gr_mut acts).
Proof.
  intros H H1. apply applyb_ok. destruct (histories _ _ ob_aligned _ _ _ _ _ (gr_run acts H H1) _ (ob_history [] [] H)) as (tr' & H' & _). exact (iv_reach _ _ (proj1 (history_inv _ _ ob_aligned _ _ H'))).
Qed.
(** mixin 3 is added; meanwhile another mutation takes mixin 0 and adds 5; a name is unknown; mixin 1 goes to the back *)
Definition gr_acts : list gact := [GaCall (GOp (MAdd 3)); GaOther (OMutate false true 1 [MRemove 0; MAdd 5]); GaCall (GOp (MAddName [120]%N)); GaCall (GOp (MBack 1))].

Lemma domain_is s o d : option_map (fun x => t_dom (snd x)) (recb s o) = Some d -> object_domain s o d.
Proof.
  unfold recb. destruct (s_obj s o) as [x|] eqn:Hx; [|discriminate]. destruct (o_type x) as [r|] eqn:Hr; [|discriminate]. destruct (w_type (s_w s) r) as [t|] eqn:Ht; [|discriminate]. cbn. intros [= <-].
  exists r, t. split; auto. exists x. auto.
Qed.
Lemma drafting_is tr : forallb (fun x => match fst x with GaCall _ | GaOther _ => true | _ => false end) tr = true -> drafting tr.
Proof. intros H a r Hin. rewrite forallb_forall in H. specialize (H _ Hin). destruct a; auto; discriminate. Qed.
