(** C90: definitions with static storage duration. *)
From Coq Require Import List Arith ZArith NArith Lia Bool Permutation.
From Verif Require Import Base Sv Info Registry TypeBuild Domain SpecReg SpecDom SpecOrd ExEnv PropsDom Define SpecDefine Life Globals SpecGlob GlobProofs PropsDef.
Import ListNotations.

(** C90. Before the end of the program, in whatever order definitions begin and whatever is called in between: nothing of static storage duration is used before
    it is made, and every definition and call does and ends just as its registration or call in the world it finds. *)
Theorem C90_start : forall E data owner tr s o, regular_rules E -> own_rules E data owner -> grun E data owner (orderly data) tr s -> orderly data s o ->
  let run {A} (wr : world * res A) (uncaught : ended) := (fst wr, ends_as (snd wr) uncaught) in
  (g_w (fst (gstep E data owner s o)), snd (gstep E data owner s o)) = match o with
    | GGet _ | GInfo _ => (g_w s, EReturns)
    | GDefine d m => run (register_in E (g_w s) d (md_of data m)) ETerminates
    | GClass d c => run (dstep E (g_w s) (DRegTc d c)) ETerminates
    | GObj r => match on_domain (g_w s) (DNewObj r) with Some _ => run (dstep E (g_w s) (DNewObj r)) ETerminates | None => (g_w s, EUb UbDangling) end
    | GCall c => match on_domain (g_w s) c with Some _ => run (dstep E (g_w s) c) EReturns | None => (g_w s, EUb UbDangling) end
    end.
Proof. intros E data owner tr s o RR OW. exact (c90_start E RR data owner OW tr s o). Qed.
Print Assumptions C90_start.

(** The order of the definitions does not matter for what is defined: the mixins of a domain, and its rules with their counts. *)
Theorem C90_order : forall E data owner tr s tr' s', regular_rules E -> own_rules E data owner -> grun E data owner (orderly data) tr s -> grun E data owner (orderly data) tr' s' ->
  Permutation (definitions tr) (definitions tr') -> forall d,
  (forall r c, In (r, c) (d_rules (w_dom (g_w s) d)) <-> In (r, c) (d_rules (w_dom (g_w s') d))) /\
  (forall m, data m <> None -> (w_mdom (g_w s) m = Some d <-> In (d, m) (definitions tr)) /\ (w_mdom (g_w s') m = Some d <-> In (d, m) (definitions tr))).
Proof. intros E data owner tr s tr' s' RR OW. exact (c90_order E RR data owner OW tr s tr' s'). Qed.
Print Assumptions C90_order.

(** If only global objects that were made with their types are left, the program ends without undefined behaviour and without being terminated: all variables are destroyed, and when a domain is, its
    definitions have ended before; when the data of a mixin is, no domain has the mixin or a rule that is part of the data. *)
Theorem C90_exit : forall E data owner tr s, regular_rules E -> own_rules E data owner -> grun E data owner (orderly data) tr s -> only_globals s ->
  exists log s', g_exit E data owner s = (log, (s', EReturns)) /\ map fst log = g_stack s /\
    (forall d, In (SDomain d) (g_stack s) <-> g_dead s' d = true) /\
    (forall d s1, In (SDomain d, s1) log -> left_clean E data (g_w s1) d /\ forall c, In (SClass d c) (g_stack s) -> ~ In (Some c) (d_tcs (w_dom (g_w s1) d))) /\
    (forall m s1, In (SData m, s1) log -> w_mdom (g_w s1) m = None /\ forall d r c, owner r = Some m -> ~ In (r, c) (d_rules (w_dom (g_w s1) d))) /\
    (forall m, data m <> None -> w_mdom (g_w s') m = None).
Proof. intros E data owner tr s RR OW. exact (c90_exit E RR data owner OW tr s). Qed.
Print Assumptions C90_exit.

(** A program: the type class first, then mixins 1 and 0 of domain 1 with the rules of [ex_data], of which 2 and 8 are in the data of the mixins; then a type and an object of it. *)
Definition gl_owner (r : rptr) : option mptr := match r with 2 => Some 0 | 8 => Some 1 | _ => None end.
Definition gl_ops : list gop := [GClass 1 0; GInfo 0; GCall (DRegMixin 1 3); GDefine 1 1; GDefine 1 0; GGet 2; GCall (DGetType 1 [1; 0] true); GObj (TReg 0)].
Definition gl_ops2 : list gop := [GDefine 1 0; GDefine 1 1].
Definition gl_ops3 : list gop := [GCall (DRegMixin 1 3); GDefine 1 1; GDefine 1 0; GCall (DGetType 1 [1; 0] true); GCall (DNewObj (TReg 0))].
Definition gl_after (ops : list gop) : gst := fold_left (fun s o => fst (gstep ex_env ex_data gl_owner s o)) ops (g_init ex_env).
Lemma gl_run ops : (forall s o, In o ops -> orderly ex_data s o) ->
  (forall l o r, ops = l ++ o :: r -> snd (gstep ex_env ex_data gl_owner (gl_after l) o) = EReturns) -> grun ex_env ex_data gl_owner (orderly ex_data) ops (gl_after ops).
Proof.
  induction ops as [|o ops IH] using rev_ind; intros H1 H2; [constructor|]. econstructor; [apply IH| |].
  - intros; apply H1, in_or_app; auto.
  - intros l o2 r Q. apply (H2 l o2 (r ++ [o])). now rewrite Q, <- app_assoc.
  - apply H1, in_or_app. cbn. auto.
  - unfold gl_after at 2. rewrite fold_left_app. cbn [fold_left]. fold (gl_after ops). rewrite <- (H2 ops o [] eq_refl). apply surjective_pairing.
Qed.
Lemma gl_own : own_rules ex_env ex_data gl_owner.
Proof.
  split.
  - intros [|[|m]] rs r m' H I O; cbn in H; try discriminate; injection H as <-; cbn in I; destruct I as [<-|[<-|[]]]; cbn in O; congruence.
  - intros d. reflexivity.
Qed.
Lemma gl_runs : grun ex_env ex_data gl_owner (orderly ex_data) gl_ops (gl_after gl_ops) /\ grun ex_env ex_data gl_owner (orderly ex_data) gl_ops2 (gl_after gl_ops2) /\
  grun ex_env ex_data gl_owner (orderly ex_data) gl_ops3 (gl_after gl_ops3).
Proof.
  split; [|split]; (apply gl_run; [intros s o I; cbn in I; repeat (destruct I as [<-|I]; [cbn; auto; discriminate|]); destruct I|]); intros l o r Q;
    repeat (destruct l as [|? l]; [cbn in Q; injection Q as <- <-; vm_compute; reflexivity|cbn in Q; injection Q as <- Q]); destruct l; discriminate.
Qed.
Example C90_example : regular_rules ex_env /\ own_rules ex_env ex_data gl_owner /\ grun ex_env ex_data gl_owner (orderly ex_data) gl_ops (gl_after gl_ops) /\
  grun ex_env ex_data gl_owner (orderly ex_data) gl_ops2 (gl_after gl_ops2) /\ Permutation (definitions gl_ops) (definitions gl_ops2) /\ only_globals (gl_after gl_ops) /\
  g_stack (gl_after gl_ops) = [SObj (TReg 0); SDomain 2; SInst 0; SInst 1; SData 1; SData 0; SClass 1 0; SDomain 1] /\ d_rules (w_dom (g_w (gl_after gl_ops)) 1) = [(8, 1); (1, 2); (2, 1); (101, 1)] /\
  num_types (g_w (gl_after gl_ops)) 1 = 1 /\ snd (snd (g_exit ex_env ex_data gl_owner (gl_after gl_ops))) = EReturns.
Proof.
  split; [exact ex_regular_rules|]. split; [exact gl_own|]. split; [apply gl_runs|]. split; [apply gl_runs|]. split; [cbn; constructor|].
  split; [|vm_compute; auto]. intros [d|[|n]] t; vm_compute; intros Q; try discriminate; injection Q as <-; reflexivity.
Qed.

(** That no other objects are left is needed: an object that got a type whose mixins are defined after it was made (in a global variable that was made before
    the definition, say) is undefined behaviour when the definition ends. *)
Theorem C90_objects_refuted : exists E data owner tr s, regular_rules E /\ own_rules E data owner /\ grun E data owner (orderly data) tr s /\
  exists u, snd (snd (g_exit E data owner s)) = EUb u.
Proof.
  exists ex_env, ex_data, gl_owner, gl_ops3, (gl_after gl_ops3). split; [exact ex_regular_rules|]. split; [exact gl_own|]. split; [apply gl_runs|].
  exists UbAssert. vm_compute. reflexivity.
Qed.
Print Assumptions C90_objects_refuted.
