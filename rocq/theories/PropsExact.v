(** Claims that hold under a condition, with exactly that condition: C49, C60, C68, C79. *)
From Coq Require Import List Arith ZArith NArith Lia Bool.
From Verif Require Import Base Sv Info TypeBuild TypeQuery MixinInfo Domain SpecReg SpecDom SpecOrd SpecLayout SpecList Heap Mutation Object SpecObj SpecMut SpecLog SpecAct
  HonestProofs ObjTheorems8 ObjTheorems10 ExEnv ExObj PropsObj PropsMut Resource Define SpecDefine SpecExact ExactProofs.
Import ListNotations.

(** C49. Which lists of indices update_at accepts, and that exactly the mixins with an index of the list are made or updated with its functions
    (the number of mixins is not the index of one). *)
Theorem C49_exact : forall E U tr s o r l s' res t, aligned_mixins E -> history E U tr s -> fair E s (OPiecewise false o r (at_calls l)) -> w_type (s_w s) r = Some t ->
  op_run E U (OPiecewise false o r (at_calls l)) s = (s', res) ->
  match res with
  | Ok _ => accepted (length (t_mixins t)) l /\ exists ev, mutated E s s' o r (made_at E l) (updated_at l) ev /\ all_worked ev
  | Throw e => (exists ev, failed E s s' o (t_mixins t) (maybe_made_at E l) (maybe_updated_at l) ev /\ blames U False s s' ev e) /\
      (e = EBadPiecewise -> ~ accepted (length (t_mixins t)) l)
  | Ub _ => False
  end.
Proof.
  intros E U tr s o r l s' res t A H. by_history A H. intros F W R. pose proof (pieces_spec E U A s o r l s' res t I T F W R) as P.
  destruct res as [u|e|u]; [|destruct P as [P1 P2]; split; [exact P1|]; intros He; rewrite <- order_accepted; exact (P2 He)|exact P]. destruct P as [P1 P2]. split; [now apply order_accepted|exact P2].
Qed.
Print Assumptions C49_exact.
(** The target has three mixins. *)
Example C49_exact_example : let s := ob_st [] [] in history ob_env (ob_user []) (ob_trace [] []) s /\ length (t_mixins (ob_type s (TReg 4))) = 3 /\ w_type (s_w s) (TReg 4) = Some (ob_type s (TReg 4)) /\
  accepted 3 [(0, 5); (3, 6); (3, 7)] /\ ~ accepted 3 [(3, 6); (2, 7)] /\ ~ accepted 3 [(4, 5)] /\
  forall l res, In (l, res) [([(0, 5); (3, 6); (3, 7)], Ok tt); ([(3, 6); (2, 7)], Throw EBadPiecewise); ([(4, 5)], Throw EBadPiecewise)] ->
    fair ob_env s (OPiecewise false 1 (TReg 4) (at_calls l)) /\ snd (op_run ob_env (ob_user []) (OPiecewise false 1 (TReg 4) (at_calls l)) s) = res.
Proof.
  split; [ob_hist|]. split; [vm_compute; reflexivity|]. split; [vm_compute; reflexivity|].
  split; [exists [(0, 5)], [(3, 6); (3, 7)]; split; [reflexivity|]; split; [cbn; lia|]; intros i k H; cbn in H; intuition congruence|].
  split; [intros (l1 & l2 & He & H1 & H2); destruct l1 as [|[a b] [|[c e] l1]]; cbn in He; [subst l2; specialize (H2 2 7 (or_intror (or_introl eq_refl))); lia| |]; injection He as ? ?; subst; cbn in H1; lia|].
  split; [intros (l1 & l2 & He & H1 & H2); destruct l1 as [|[a b] l1]; cbn in He; [subst l2; specialize (H2 4 5 (or_introl eq_refl)); lia|injection He as ? ?; subst; cbn in H1; lia]|].
  intros l res H. cbn [In] in H. repeat (destruct H as [H|H]; [injection H as <- <-; split; [ob_can|vm_compute; reflexivity]|]). destruct H.
Qed.

(** C60. Views of different contents at the same address are the only ones that are compared wrongly. *)
Theorem C60_exact : forall a b, view_wf a -> view_wf b -> (compares a b (sv_cmp a b) <-> (sv_begin a = sv_begin b -> sv_bytes a = sv_bytes b)).
Proof. exact cmp_exact. Qed.
Print Assumptions C60_exact.
Example C60_exact_example : view_wf (ex_sv 5 [97]%N) /\ view_wf (ex_sv 5 [97; 98]%N) /\ view_wf (ex_sv 9 [97; 98]%N) /\
  ~ compares (ex_sv 5 [97]%N) (ex_sv 5 [97; 98]%N) (sv_cmp (ex_sv 5 [97]%N) (ex_sv 5 [97; 98]%N)) /\ compares (ex_sv 5 [97]%N) (ex_sv 9 [97; 98]%N) (sv_cmp (ex_sv 5 [97]%N) (ex_sv 9 [97; 98]%N)).
Proof.
  split; [discriminate|]. split; [discriminate|]. split; [discriminate|]. split.
  - rewrite C60_exact by discriminate. intros H. specialize (H eq_refl). discriminate H.
  - apply C60_exact; discriminate.
Qed.

(** C68. The generated names are in the order of the calls if and only if there are at most ten rules. *)
Theorem C68_exact : forall name l, auto_named l -> (in_call_order (rules_told name 0 l) <-> length (rules_told name 0 l) <= 10).
Proof. exact order_exact. Qed.
Print Assumptions C68_exact.
Example C68_exact_example : forall n, auto_named (map (fun a => BRuleAuto a no_perks) (seq 0 n)) /\ length (rules_told [97%N] 0 (map (fun a => BRuleAuto a no_perks) (seq 0 10))) = 10.
Proof. intros n. split; [|reflexivity]. intros c Hc. apply in_map_iff in Hc as (a & <- & _). exact I. Qed.

(** C79. The size that is asked of aligned_alloc is enough if and only if size plus alignment is not above 2^32; just above that it is 0. *)
Theorem C79_exact : forall bytes a, (0 < a)%N -> (a < 4294967296)%N ->
  exists s, resource_size bytes a = Ok s /\ ((bytes <= s)%N <-> (bytes + a <= 4294967296)%N) /\ N.divide a s /\ ((4294967296 < bytes + a)%N -> (bytes < 4294967296)%N -> s = 0%N).
Proof. exact resource_exact. Qed.
Print Assumptions C79_exact.
Example C79_exact_example : resource_size 4294967280 16 = Ok 4294967280%N /\ resource_size 4294967281 16 = Ok 0%N /\ resource_size 4294967300 16 = Ok 16%N.
Proof. vm_compute. auto. Qed.
