(** Histories that keep the contract of unregister_feature; used by examples. *)
From Coq Require Import List Arith ZArith NArith Lia Bool.
From Verif Require Import Base Sv Info Domain SpecReg ExEnv ExFirst BaseLemmas ElemProofs HistProofs RegTheorems DomTheorems.
Import ListNotations.

(** No mixin of [ex_env] lists a feature from 4 on. *)
Definition keeps_features (o : dop) : bool := match o with DUnregFeature _ f => 4 <=? f | _ => true end.
Lemma ex_lists m f : In f (map ff_info (m_features (ex_mixins m))) -> f < 4.
Proof. do 5 (destruct m as [|m]; [simpl; intuition lia|]). simpl. intros []. Qed.
Lemma ex_where E (ok : world -> dop -> Prop) ops : (forall o w, In o ops -> ok w o) -> no_ub (ex_tr E ops) = true ->
  run_where E ok (ex_tr E ops) (ex_after E ops).
Proof.
  unfold ex_tr, ex_after. induction ops as [|o ops IH] using rev_ind; [intros; constructor|].
  rewrite execs_app. intros Hok.
  destruct (execs E (init_world E) ops) as [w1 t1] eqn:He. simpl. destruct (dstep E w1 o) as [w2 x] eqn:Hs. simpl. rewrite no_ub_app. intros [Hu1 Hu2].
  econstructor; [apply IH; auto; intros; apply Hok, in_or_app; auto| |exact Hs|].
  - apply Hok, in_or_app. simpl. auto.
  - destruct x; simpl in *; try discriminate; auto.
Qed.
Lemma ex_kept E ops : e_mixin E = ex_mixins -> forallb keeps_features ops = true -> no_ub (ex_tr E ops) = true ->
  run_where E (features_kept E) (ex_tr E ops) (ex_after E ops).
Proof.
  intros HE Hops. apply ex_where. intros o w Ho. rewrite forallb_forall in Hops. apply Hops in Ho.
  destruct o; cbn [features_kept]; auto. intros m d' _ Hin. rewrite HE in Hin. apply ex_lists in Hin. apply Nat.leb_le in Ho. lia.
Qed.

(** Two domains, types with several implementers. *)
Definition ex_msg_ops : list dop :=
  [DRegFeature 0 5; DRegFeature 0 6; DRegMixin 0 0; DRegMixin 0 1; DRegMixin 0 2; DUnregFeature 0 6; DRegMixin 0 5; DRegFeature 0 9;
   DRegMixin 2 4; DRegMixin 2 7; DRegMixin 1 8;
   DGetType 0 [0; 1; 2] true; DGetType 0 [5] true; DGetType 2 [7; 4] true; DGetType 0 [2; 5; 0; 1] true; DGetType 1 [8] true; DGetType 0 [1; 0] true].
Definition ex_mtr : trace := ex_tr ex_env ex_msg_ops.
Definition ex_mw : world := ex_after ex_env ex_msg_ops.
Lemma ex_mrun : run_where ex_env (features_kept ex_env) ex_mtr ex_mw.
Proof. apply ex_kept; vm_compute; reflexivity. Qed.
Lemma ex_mreach : reachable ex_env ex_mw.
Proof. exists ex_mtr. exact (run_where_run _ _ _ _ ex_mrun). Qed.
(** The type under a reference in a world (or an empty one). *)
Definition ex_type (w : world) (r : tref) : TypeBuild.type_rec := match w_type w r with Some t => t | None => TypeBuild.empty_type 0 end.
