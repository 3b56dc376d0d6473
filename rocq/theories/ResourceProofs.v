(** Proofs about the default memory resource *)
From Coq Require Import List NArith ZArith Lia Bool.
From Verif Require Import Base Sv Info TypeBuild Domain SpecReg SpecDom SpecLayout LayoutProofs TypeTheorems Resource.
Import ListNotations.
Local Open Scope N_scope.

Lemma resource_enough bytes a : 0 < a -> bytes + a < 4294967296 ->
  exists s, resource_size bytes a = Ok s /\ bytes <= s < bytes + a /\ (a | s).
Proof.
  intros A B. unfold resource_size. unfold u32. rewrite !N.mod_small by lia. destruct (N.eqb_spec a 0); [lia|].
  destruct (next_multiple_spec bytes a A) as (q & H & H1 & H2); [unfold W32; lia|]. rewrite H.
  exists (q * a). split; [reflexivity|]. split; [lia|]. exists q. reflexivity.
Qed.
Lemma resource_gives libc bytes a p s : 0 < a -> bytes + a < 4294967296 ->
  (forall al n q, libc al n = Some q -> (al | q)) -> resource_allocate libc bytes a = Ok (p, s) -> (a | p) /\ bytes <= s.
Proof.
  intros A B L H. destruct (resource_enough bytes a A B) as (s' & R & S & _). unfold resource_allocate in H. rewrite R in H. cbn [bind] in H.
  destruct (libc a s') as [q|] eqn:Q; [|discriminate]. injection H as <- <-. split; [eauto|lia].
Qed.
