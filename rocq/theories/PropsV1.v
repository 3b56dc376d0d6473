(** Theorems C54: the rule ids of dynamix 1 *)
From Coq Require Import List Arith ZArith NArith Lia Bool.
From Verif Require Import Base Sv Info Registry Rules Domain SpecReg SpecOrd ExEnv PropsDom V1Rules SpecV1 V1Proofs.
Import ListNotations.

(** A program in the example environment, with domain 1 (which canonicalizes types) as that of dynamix 1 *)
Definition v1_exec (dv : dptr) (ops : list vop) : vst * list (vop * res vret) :=
  fold_left (fun p o => (fst (vstep ex_env dv (fst p) o), snd p ++ [(o, snd (vstep ex_env dv (fst p) o))])) ops
    ({| v_w := init_world ex_env; v_slots := [] |}, []).
Definition v1_oks (dv : dptr) (ops : list vop) : bool :=
  forallb (fun c => match snd c with Ub _ => false | _ => true end) (snd (v1_exec dv ops)) &&
  forallb (fun o => match o with VDom (DAddRule d _) | VDom (DRemRule d _) => negb (d =? dv) | _ => true end) ops.
Lemma v1_run dv ops : v1_oks dv ops = true -> vrun ex_env dv (v1_only dv) (snd (v1_exec dv ops)) (fst (v1_exec dv ops)).
Proof.
  induction ops as [|o ops IH] using rev_ind; intros H; [constructor|].
  unfold v1_oks, v1_exec in *. rewrite fold_left_app in *. cbn [fold_left fst snd] in *.
  apply andb_prop in H. destruct H as [H1 H2]. rewrite forallb_app in H1, H2. apply andb_prop in H1. apply andb_prop in H2.
  destruct H1 as [H1 H1']. destruct H2 as [H2 H2'].
  apply vr_snoc with (s := fst (fold_left (fun p o => (fst (vstep ex_env dv (fst p) o), snd p ++ [(o, snd (vstep ex_env dv (fst p) o))])) ops
    ({| v_w := init_world ex_env; v_slots := [] |}, []))).
  - apply IH. now rewrite H1, H2.
  - cbn in H2'. unfold v1_only. destruct o as [| |[]]; auto; rewrite andb_true_r in H2'; apply negb_true_iff, Nat.eqb_neq in H2'; exact H2'.
  - apply surjective_pairing.
  - cbn in H1'. intros Hu. destruct (snd (vstep _ _ _ _)); [destruct Hu|destruct Hu|discriminate H1'].
Qed.
Definition v1_ops : list vop :=
  [VDom (DAddRule 0 1); VAdd (Some 1); VAdd (Some 2); VRemove 5; VAdd (Some 1); VRemove 0; VAdd (Some 3); VAdd (Some 7); VRemove 2; VRemove 2; VAdd (Some 8); VAdd (Some 8)].

(** C54. [under tr id] is the rule present under an id after the history. *)
Theorem C54_ids : forall E dv ok tr s, vrun E dv ok tr s ->
  (forall r s' id, vstep E dv s (VAdd (Some r)) = (s', Ok (RId id)) -> under tr id = None) /\
  (forall r, r_apply (e_rule E r) <> None -> exists s' id, vstep E dv s (VAdd (Some r)) = (s', Ok (RId id))) /\
  (forall id, under tr id = None -> vstep E dv s (VRemove id) = (s, Ok (RRule None))) /\
  (forall id r, under tr id = Some r -> exists s', vstep E dv s (VRemove id) = (s', Ok (RRule (Some r)))).
Proof. exact c54_ids. Qed.
Print Assumptions C54_ids.
Theorem C54_active : forall E dv tr s r, regular_rules E -> vrun E dv (v1_only dv) tr s ->
  (s_canonicalize (e_settings E dv) = false \/ r <> e_canon E dv) ->
  exists ids, NoDup ids /\ (forall id, In id ids <-> under tr id = Some r) /\
    (forall c, In (r, c) (d_rules (w_dom (v_w s) dv)) <-> c = length ids /\ 0 < c).
Proof. exact c54_active. Qed.
Print Assumptions C54_active.
Example C54_example : regular_rules ex_env /\
  vrun ex_env 1 (v1_only 1) (snd (v1_exec 1 v1_ops)) (fst (v1_exec 1 v1_ops)) /\
  map snd (snd (v1_exec 1 v1_ops)) =
    [Ok (RDom None); Ok (RId 0); Ok (RId 1); Ok (RRule None); Ok (RId 2); Ok (RRule (Some 1)); Ok (RId 0); Throw ENoFunc;
     Ok (RRule (Some 1)); Ok (RRule None); Ok (RId 2); Ok (RId 3)] /\
  map (under (snd (v1_exec 1 v1_ops))) [0; 1; 2; 3; 4] = [Some 3; Some 2; Some 8; Some 8; None] /\
  d_rules (w_dom (v_w (fst (v1_exec 1 v1_ops))) 1) = [(8, 2); (3, 1); (2, 1); (101, 1)].
Proof. split; [exact ex_regular_rules|]. split; [apply v1_run; vm_compute; reflexivity|]. vm_compute. repeat split. Qed.
