(** Properties of objects: programs that work with their mixins between the calls *)
From Coq Require Import List Arith ZArith NArith Lia Bool.
From Verif Require Import Base Sv Info TypeBuild TypeQuery MixinInfo Domain SpecReg SpecDom SpecOrd SpecLayout SpecList Heap Mutation Object SpecObj SpecMut SpecLog SpecAct SpecAbs
  ObjTheorems5 ObjTheorems10 AbsProofs AbsProofs2 AbsProofs3 AbsProofs4 AbsProofs5 ExEnv ExObj PropsObj PropsMut PropsAbs.
Import ListNotations.

(** C82. A function that the program calls with a mixin of an object gets the address that get_at gives, changes the value
    of that mixin and nothing else, and its exception reaches the program. *)
Theorem C82_use : forall E U tr s o i k s' res, aligned_mixins E -> history E U tr s -> fair E s (OUse o i k) -> op_run E U (OUse o i k) s = (s', res) ->
  ((forall m, ~ has_mixin s o i m) /\ s' = s /\ res = Ok tt) \/
  exists m p v v' e, holds s o i m p v /\ holds s' o i m p v' /\ only_mixin s s' p /\ did s s' [EvCall (FUpdate k) m p None e] /\
    res = if (e =? 0)%Z then Ok tt else Throw (EUserFunc e).
Proof. intros E U tr s o i k s' res A H. by_history A H. exact (use_spec E U s o i k s' res I T). Qed.
Print Assumptions C82_use.
(** A value keeps its way: it stays in its object when other mixins are added and removed, and goes with copies and moves. *)
Theorem C82_journey : forall E U tr s o s' o' m, aligned_mixins E -> history E U tr s -> journey E U m s o s' o' -> value (look s') o' m = value (look s) o m /\ exists v, value (look s) o m = Some v.
Proof. intros E U tr s o s' o' m A H. by_history A H. intros J. destruct (journey_value E U A s o s' o' m I T J) as (_ & _ & K & S & _). split; [exact K|]. now apply sees_value. Qed.
Print Assumptions C82_journey.
(** So what the program leaves in a mixin is what it finds later, in whatever object. *)
Theorem C82_read_back : forall E U tr s o i k s1 res m p v s2 o2, aligned_mixins E -> history E U tr s -> fair E s (OUse o i k) -> op_run E U (OUse o i k) s = (s1, res) ->
  holds s1 o i m p v -> journey E U m s1 o s2 o2 -> exists j q, holds s2 o2 j m q v.
Proof. intros E U tr s o i k s1 res m p v s2 o2 A H. by_history A H. exact (use_journey E U A s o i k s1 res m p v s2 o2 I T). Qed.
Print Assumptions C82_read_back.

(** Object 1 has the mixins 0 and 1, and 4 has 1 3 5. The program writes to mixin 1 of object 1, adds mixin 5, moves the object to 9, copies the matching
    mixins to 4, writes to mixin 0 of 9, and moves 4 to 6. *)
Definition ob_way : list oop := [OUse 1 1 5; OMutate false true 1 [MAddInit 9 5]; OMoved 9 1; OCopyMatching 4 9; OUse 9 0 6; OMoveAssign 6 4].
Lemma ob_sees s o m v : value (look s) o m = Some v -> sees (look s) o m.
Proof. intros H. apply sees_value. eauto. Qed.
Example C82_example :
  history ob_env (ob_user []) (ob_trace [] []) (ob_st [] []) /\ fair ob_env (ob_st [] []) (OUse 1 1 5) /\
  ob_events [] [] (OUse 1 1 5) = [EvCall (FUpdate 5) 1 (1, 8%N) None 0%Z] /\
  ob_views (ob_st [] []) [1] = [Some (false, Some [(0, 2%Z); (1, 3%Z)])] /\ ob_views (ob_st [] [OUse 1 1 5]) [1] = [Some (false, Some [(0, 2%Z); (1, 22%Z)])] /\
  journey ob_env (ob_user []) 1 (ob_st [] [OUse 1 1 5]) 1 (ob_st [] ob_way) 6 /\
  ob_views (ob_st [] ob_way) [1; 4; 6; 9] = [Some (false, Some []); Some (false, Some []); Some (false, Some [(1, 22%Z); (3, 16%Z); (5, 24%Z)]); Some (false, Some [(0, 28%Z); (1, 22%Z); (5, 24%Z)])] /\
  (* a function that fails *)
  snd (op_run ob_env (ob_user [22]) (OUse 1 1 5) (ob_st [22] [])) = Throw (EUserFunc 7).
Proof.
  split; [ob_hist|]. split; [ob_can|]. do 3 (split; [vm_compute; reflexivity|]). split; [|split; vm_compute; reflexivity].
  assert (Hp : forall n op a b v, nth_error ob_way n = Some op -> fairb ob_env (ob_st [] (firstn n ob_way)) op = true -> ob_fine [] (firstn n ob_way) = true ->
     snd (op_run ob_env (ob_user []) op (ob_st [] (firstn n ob_way))) = Ok tt -> a = b /\ leaves_alone ob_env (ob_st [] (firstn n ob_way)) op a 1 \/ passes op a b -> value (look (ob_st [] (firstn (S n) ob_way))) b 1 = Some v ->
     journey ob_env (ob_user []) 1 (ob_st [] [OUse 1 1 5]) 1 (ob_st [] (firstn n ob_way)) a -> journey ob_env (ob_user []) 1 (ob_st [] [OUse 1 1 5]) 1 (ob_st [] (firstn (S n) ob_way)) b).
  { intros n op a b v Hn Hf Hg Hr Hl Hv Hj. assert (Hrun : op_run ob_env (ob_user []) op (ob_st [] (firstn n ob_way)) = (ob_st [] (firstn (S n) ob_way), Ok tt)).
    { rewrite (firstn_snoc _ _ _ Hn), <- (ob_next_st [] (firstn n ob_way) op). now apply ob_run. }
    apply ob_sees in Hv. destruct Hl as [[<- Hl]|Hl]; [eapply jn_stay|eapply jn_pass]; eauto; now apply ob_fair. }
  change ob_way with (firstn 6 ob_way) at 1.
  apply (Hp 5 (OMoveAssign 6 4) 4 6 22%Z eq_refl); [vm_compute; reflexivity|vm_compute; reflexivity|vm_compute; reflexivity|right; cbn; auto|vm_compute; reflexivity|].
  apply (Hp 4 (OUse 9 0 6) 4 4 22%Z eq_refl); [vm_compute; reflexivity|vm_compute; reflexivity|vm_compute; reflexivity|left; split; [reflexivity|cbn [leaves_alone]; discriminate]|vm_compute; reflexivity|].
  apply (Hp 3 (OCopyMatching 4 9) 9 4 22%Z eq_refl); [vm_compute; reflexivity|vm_compute; reflexivity|vm_compute; reflexivity|right; cbn; auto|vm_compute; reflexivity|].
  apply (Hp 2 (OMoved 9 1) 1 9 22%Z eq_refl); [vm_compute; reflexivity|vm_compute; reflexivity|vm_compute; reflexivity|right; cbn; auto|vm_compute; reflexivity|].
  apply (Hp 1 (OMutate false true 1 [MAddInit 9 5]) 1 1 22%Z eq_refl); [vm_compute; reflexivity|vm_compute; reflexivity|vm_compute; reflexivity|left; split; [reflexivity|cbn; intros _ (k & [])]|vm_compute; reflexivity|].
  apply jn_start. apply (ob_sees _ _ _ 22%Z). vm_compute. reflexivity.
Qed.
