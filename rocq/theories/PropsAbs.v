(** Properties of objects: what programs see of them *)
From Coq Require Import List Arith ZArith NArith Lia Bool.
From Verif Require Import Base Sv Info TypeBuild TypeQuery MixinInfo Domain SpecReg SpecDom SpecOrd SpecLayout SpecList Heap Mutation Object SpecObj SpecMut SpecLog SpecAct SpecAbs
  ObjTheorems10 AbsProofs AbsProofs2 AbsProofs3 AbsProofs4 ExEnv ExObj PropsObj PropsMut.
Import ListNotations.

(** C81. A view shows what the queries of the object give. *)
Theorem C81_view : forall E U tr s o x, aligned_mixins E -> history E U tr s -> s_obj s o = Some x ->
  match o_type x with
  | None => look s o = Some {| v_sealed := o_sealed x; v_mixins := None |}
  | Some r => exists t l, w_type (s_w s) r = Some t /\ is_view (look s) o (o_sealed x) l /\ mixins l = t_mixins t /\ NoDup (mixins l) /\
      (forall i m v, nth_error l i = Some (m, v) <-> exists p, get_at s o i = Ok (Some p) /\ instance s p = Some {| i_mixin := m; i_val := v |}) /\
      (forall m v, val_of m l = Some v <-> exists p, get s o (w_mid (s_w s) m) = Ok (Some p) /\ instance s p = Some {| i_mixin := m; i_val := v |})
  end.
Proof. intros E U tr s o x A H. by_history A H. exact (look_queries E A s o x I T). Qed.
Print Assumptions C81_view.
(** Each call of a program that respects the contracts does with the views what the specification says. *)
Theorem C81_simulates : forall E U tr s op s' res, aligned_mixins E -> history E U tr s -> fair E s op -> op_run E U op s = (s', res) -> behaves E s op res (look s) (look s').
Proof. intros E U tr s op s' res A H. by_history A H. exact (simulates E U A s op s' res I T). Qed.
Print Assumptions C81_simulates.
(** A mixin keeps its value as long as the object has it and no call writes to it. *)
Theorem C81_persists : forall E U tr s s' o m, aligned_mixins E -> history E U tr s -> undisturbed E U o m s s' -> value (look s') o m = value (look s) o m /\ exists v, value (look s) o m = Some v.
Proof. intros E U tr s s' o m A H. by_history A H. intros Hu. destruct (undisturbed_value E U A s s' o m I T Hu) as (_ & _ & K & S). split; [exact K|]. now apply sees_value. Qed.
Print Assumptions C81_persists.

Definition ob_views (s : st) (os : list nat) : list (option (bool * option (list (mptr * Z)))) := map (fun o => option_map (fun x => (v_sealed x, v_mixins x)) (look s o)) os.
Example C81_example :
  history ob_env (ob_user []) (ob_trace [] []) (ob_st [] []) /\
  ob_views (ob_st [] []) [1; 3; 4; 5; 9] = [Some (false, Some [(0, 2%Z); (1, 3%Z)]); Some (true, Some [(1, 10%Z); (5, 11%Z); (0, 12%Z)]); Some (false, Some [(1, 15%Z); (3, 16%Z); (5, 17%Z)]); Some (false, Some []); None] /\
  (* copy_from gives the same view, copy_matching_from the values of the shared mixins, move_from takes the sealing too *)
  ob_views (ob_next [] [] (OCopyFrom false 4 3)) [3; 4] = [Some (true, Some [(1, 10%Z); (5, 11%Z); (0, 12%Z)]); Some (false, Some [(1, 10%Z); (5, 11%Z); (0, 12%Z)])] /\
  ob_views (ob_next [] [] (OCopyMatching 4 3)) [3; 4] = [Some (true, Some [(1, 10%Z); (5, 11%Z); (0, 12%Z)]); Some (false, Some [(1, 10%Z); (3, 16%Z); (5, 11%Z)])] /\
  ob_views (ob_next [] [] (OMoveAssign 4 3)) [3; 4] = [Some (true, Some []); Some (true, Some [(1, 10%Z); (5, 11%Z); (0, 12%Z)])] /\
  (* a mutation keeps the values of the common mixins *)
  ob_views (ob_next [] [] (OMutate false true 1 [MAddInit 9 5])) [1] = [Some (false, Some [(0, 2%Z); (1, 3%Z); (5, 23%Z)])] /\
  forall op, In op [OCopyFrom false 4 3; OCopyMatching 4 3; OMoveAssign 4 3; OMutate false true 1 [MAddInit 9 5]] -> fair ob_env (ob_st [] []) op.
Proof.
  split; [ob_hist|]. do 5 (split; [vm_compute; reflexivity|]). intros op H. cbn [In] in H. repeat (destruct H as [<-|H]; [ob_can|]). destruct H.
Qed.
(** Mixin 0 of object 1 keeps its value when the object is copied to 4, when others are added and removed, and when a mutation fails. *)
Definition ob_calm : list oop := [OCopyFrom false 4 1; ob_mut; OSeal 1; OMutate false true 1 [MRemove 0]].
Example C81_persists_example :
  history ob_env (ob_user []) (ob_trace [] []) (ob_st [] []) /\ undisturbed ob_env (ob_user []) 1 0 (ob_st [] []) (ob_st [] ob_calm) /\ value (look (ob_st [] [])) 1 0 = Some 2%Z /\
  map fst (filter (fun x => match snd x with Throw _ => true | _ => false end) (ob_trace [] ob_calm)) = [OMutate false true 1 [MRemove 0]].
Proof.
  assert (Hs : forall n, n <= 4 -> sees (look (ob_st [] (firstn n ob_calm))) 1 0).
  { intros n Hn. apply sees_value. do 5 (destruct n as [|n]; [exists 2%Z; vm_compute; reflexivity|]). lia. }
  assert (Hc : forall n op, nth_error ob_calm n = Some op -> fairb ob_env (ob_st [] (firstn n ob_calm)) op = true -> ob_fine [] (firstn n ob_calm) = true -> leaves_alone ob_env (ob_st [] (firstn n ob_calm)) op 1 0 ->
     undisturbed ob_env (ob_user []) 1 0 (ob_st [] []) (ob_st [] (firstn n ob_calm)) -> undisturbed ob_env (ob_user []) 1 0 (ob_st [] []) (ob_st [] (firstn (S n) ob_calm))).
  { intros n op Hn Hf Hg Hl Hu. assert (n < 4) as Hlt. { apply (proj1 (nth_error_Some ob_calm n)). congruence. } rewrite (firstn_snoc _ _ _ Hn). eapply ud_call; [exact Hu|apply ob_fair; eassumption| |exact Hl|].
    - rewrite <- (ob_next_st [] (firstn n ob_calm) op). apply ob_run. reflexivity.
    - rewrite <- (firstn_snoc _ _ _ Hn). apply Hs. lia. }
  split; [ob_hist|]. split; [|split; vm_compute; reflexivity].
  change ob_calm with (firstn 4 ob_calm) at 1.
  apply (Hc 3 (OMutate false true 1 [MRemove 0]) eq_refl); [vm_compute; reflexivity|vm_compute; reflexivity|cbn; intros _ (k & [])|].
  apply (Hc 2 (OSeal 1) eq_refl); [vm_compute; reflexivity|vm_compute; reflexivity|cbn; intros (u & [=])|].
  apply (Hc 1 ob_mut eq_refl); [vm_compute; reflexivity|vm_compute; reflexivity|cbn; intros _ (k & [])|].
  apply (Hc 0 (OCopyFrom false 4 1) eq_refl); [vm_compute; reflexivity|vm_compute; reflexivity|cbn; discriminate|].
  apply ud_start. apply (Hs 0). lia.
Qed.
