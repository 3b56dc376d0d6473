(** The values of mixins over time *)
From Coq Require Import List Arith ZArith NArith Lia Bool.
From Verif Require Import Base Sv BaseLemmas Info TypeBuild TypeQuery Domain SpecLayout Heap Mutation Object SpecObj SpecMut SpecAct SpecAbs OpProofs ObjProofs ActProofs ActProofs3 AbsProofs AbsProofs2.
Import ListNotations.

Lemma value_view V o m sl l : is_view V o sl l -> value V o m = val_of m l.
Proof. intros H. unfold value. now rewrite H. Qed.
Lemma value_some V o m v : value V o m = Some v -> exists sl l, is_view V o sl l /\ val_of m l = Some v.
Proof. unfold value, is_view. destruct (V o) as [[sl [l|]]|]; try discriminate. eauto. Qed.
Lemma sees_value V o m : sees V o m <-> exists v, value V o m = Some v.
Proof.
  split.
  - intros (sl & l & H & Hm). rewrite (value_view V o m sl l H). now apply val_mixin.
  - intros (v & H). destruct (value_some V o m v H) as (sl & l & H1 & H2). exists sl, l. split; auto. apply val_mixin. eauto.
Qed.
Lemma view_fun V o sl l sl' l' : is_view V o sl l -> is_view V o sl' l' -> sl' = sl /\ l' = l.
Proof. unfold is_view. intros H H'. rewrite H in H'. injection H' as -> ->. auto. Qed.
Lemma overwrite_val m ls : forall l, val_of m ls = None -> val_of m (overwrite l ls) = val_of m l.
Proof.
  induction l as [|[x v] l IH]; intros H; auto. cbn. destruct (val_of x ls) as [w|] eqn:Hx; cbn; destruct (Nat.eqb_spec x m) as [->|]; auto; congruence.
Qed.
Lemma only_value (P : mptr -> Prop) V V' o m : only_values P V V' o -> ~ P m -> value V' o m = value V o m.
Proof. intros (sl & l & l' & A & B & _ & H) Hm. rewrite (value_view V o m sl l A), (value_view V' o m sl l' B). auto. Qed.
Lemma not_seen V o m sl : is_view V o sl [] -> ~ sees V o m.
Proof. intros H (sl' & l & H' & Hm). destruct (view_fun _ _ _ _ _ _ H H') as [_ ->]. exact Hm. Qed.

Section Abs3.
Variable E : env.
Variable U : user.
Hypothesis AM : aligned_mixins E.
Notation Inv := (Inv E).

Lemma step_value s op s' res o m v : Inv s -> typed s -> fair E s op -> op_run E U op s = (s', res) -> value (look s) o m = Some v -> leaves_alone E s op o m -> sees (look s') o m -> value (look s') o m = Some v.
Proof.
  intros I Ty F Hr Hv L S. destruct (simulates E U AM s op s' res I Ty F Hr) as [Fr B].
  destruct (in_dec Nat.eq_dec o (may_change op)) as [Hin|Hin]; [|unfold value; rewrite (Fr o Hin); exact Hv].
  assert (Hex : s_obj s o <> None). { intros Hz. unfold value, look in Hv. rewrite Hz in Hv. discriminate. }
  assert (Same : look s' o = look s o -> value (look s') o m = Some v). { intros Hz. unfold value. rewrite Hz. exact Hv. }
  assert (MUT : ~ may_update E s op m ->
     (exists r t sl l l', wanted E s op r t /\ is_view (look s) o sl l /\ is_view (look s') o sl l' /\ changed_mixins (may_update E s op) (t_mixins t) l l') \/ only_values (may_update E s op) (look s) (look s') o -> value (look s') o m = Some v).
  { intros Hn H. destruct H as [(r & t & sl & l & l' & _ & V & V' & M & K)|H]; [|rewrite (only_value _ _ _ _ _ H Hn); exact Hv].
    rewrite (value_view _ _ _ _ _ V'). rewrite (value_view _ _ _ _ _ V) in Hv. apply K; auto. destruct S as (sl2 & l2 & V2 & H2). destruct (view_fun _ _ _ _ _ _ V' V2) as [_ ->]. congruence. }
  destruct op; cbn [may_change] in Hin;
    try (destruct Hin as [<-|[]]; destruct res as [[]|e|u]; [|first [apply Same; apply B|apply MUT; [apply L; eexists; reflexivity|right; exact B]]|contradiction]; cbn [effect] in B;
         apply MUT; [apply L; eexists; reflexivity|]; destruct B as [B|[_ B]]; [left; exact B|right; exact B]).
  - (* OEmpty *) destruct Hin as [<-|[]]. exfalso. now apply Hex.
  - (* ONew *) destruct Hin as [<-|[]]. exfalso. apply Hex. apply F.
  - (* OMoved *) destruct F as [F _]. destruct Hin as [<-|[<-|[]]]; [contradiction|]. destruct res as [[]|e|u]; [|apply Same; apply B|contradiction]. destruct B as (sl & l & _ & _ & B). exfalso. exact (not_seen _ _ _ _ B S).
  - (* ODtor *) destruct Hin as [<-|[]]. destruct res as [[]|e|u]; [|apply Same; apply B|contradiction]. cbn in B. destruct S as (sl & l & S & _). unfold is_view in S. congruence.
  - (* OMoveAssign *) destruct res as [[]|e|u]; [|apply Same; apply B|contradiction]. cbn in B, L. destruct (Nat.eqb_spec o0 src) as [->|Hne].
    + destruct Hin as [<-|[<-|[]]]; apply Same; exact B.
    + destruct Hin as [<-|[<-|[]]]; [exfalso; apply Hne; symmetry; now apply L|]. destruct B as [_ (sl & l & _ & _ & B)]. exfalso. exact (not_seen _ _ _ _ B S).
  - (* OCopy *) destruct Hin as [<-|[]]. exfalso. apply Hex. apply F.
  - (* OCopyFrom *) destruct Hin as [<-|[]]. cbn in L. contradiction.
  - (* OCopyMatching *) destruct Hin as [<-|[]]. cbn in L. specialize (L eq_refl). destruct res as [[]|e|u]; [| |contradiction].
    + destruct B as (sl & sl' & l & ls & B1 & B2 & B3). rewrite (value_view _ _ _ _ _ B3), overwrite_val; [rewrite (value_view _ _ _ _ _ B1) in Hv; exact Hv|].
      destruct (val_of m ls) as [w|] eqn:Hw; auto. exfalso. apply L. exists sl', ls. split; auto. apply val_mixin. eauto.
    + rewrite (only_value _ _ _ _ _ B L). exact Hv.
  - (* OMoveMatching *) destruct res as [[]|e|u]; [|apply Same; apply B|contradiction]. cbn in L. destruct L as [L1 L2]. cbn in B. destruct (Nat.eqb_spec o0 src) as [->|Hne].
    + exfalso. assert (src = o) as -> by (destruct Hin as [<-|[<-|[]]]; reflexivity). apply (L1 eq_refl). apply sees_value. eauto.
    + destruct B as [(sl & sl' & l & ls & B1 & B2 & B3) B4]. destruct Hin as [<-|[<-|[]]].
      * specialize (L1 eq_refl). rewrite (value_view _ _ _ _ _ B3), overwrite_val; [rewrite (value_view _ _ _ _ _ B1) in Hv; exact Hv|].
        destruct (val_of m ls) as [w|] eqn:Hw; auto. exfalso. apply L1. exists sl', ls. split; auto. apply val_mixin. eauto.
      * rewrite (only_value _ _ _ _ _ B4 (L2 eq_refl)). exact Hv.
  - (* OClear *) destruct Hin as [<-|[]]. destruct res as [[]|e|u]; [|apply Same; apply B|contradiction]. destruct B as [_ B]. exfalso. exact (not_seen _ _ _ _ B S).
  - (* OSeal *) destruct Hin as [<-|[]]. destruct res as [[]|e|u]; [|apply Same; apply B|contradiction]. destruct B as (x & B1 & B2). unfold value in *. rewrite B2. rewrite B1 in Hv. destruct x as [sl [l|]]; exact Hv.
  - (* ODom *) destruct Hin.
  - (* OUse *) destruct Hin as [<-|[]]. cbn in L. specialize (L eq_refl). destruct res as [[]|e|u]; [| |contradiction]; rewrite (only_value _ _ _ _ _ B L); exact Hv.
Qed.
Lemma undisturbed_value s s' o m : Inv s -> typed s -> undisturbed E U o m s s' -> Inv s' /\ typed s' /\ value (look s') o m = value (look s) o m /\ sees (look s) o m.
Proof.
  intros I Ty H. induction H as [s S|s s1 op s2 res H IH F Hr L S]; [repeat (split; [auto|]); auto|]. destruct (IH I Ty) as (I1 & Ty1 & Hv & S0). destruct (typed_after E U AM s1 op s2 res I1 Ty1 F Hr) as (_ & I2 & Ty2).
  split; [auto|]. split; [auto|]. split; [|exact S0]. apply sees_value in S0. destruct S0 as (v & S0). rewrite S0. rewrite S0 in Hv. exact (step_value s1 op s2 res o m v I1 Ty1 F Hr Hv L S).
Qed.
End Abs3.
