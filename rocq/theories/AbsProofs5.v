(** Values that programs write, and that go from object to object *)
From Coq Require Import List Arith ZArith NArith Lia Bool.
From Verif Require Import Base Sv BaseLemmas Info TypeBuild TypeQuery Domain SpecLayout Heap Mutation Object SpecObj SpecMut SpecAct SpecAbs OpProofs ObjProofs ActProofs ActProofs3 ObjTheorems ObjTheorems5 AbsProofs AbsProofs2 AbsProofs3.
Import ListNotations.

Lemma overwrite_hit m ls w : forall l, In m (mixins l) -> val_of m ls = Some w -> val_of m (overwrite l ls) = Some w.
Proof.
  induction l as [|[x v] l IH]; intros Hin H; [destruct Hin|]. cbn. destruct (Nat.eqb_spec x m) as [->|Hne].
  - rewrite H. cbn. now rewrite Nat.eqb_refl.
  - destruct Hin as [Hin|Hin]; [cbn in Hin; congruence|]. destruct (val_of x ls); cbn; destruct (Nat.eqb_spec x m); try congruence; auto.
Qed.
Lemma overwrite_mixins ls l : mixins (overwrite l ls) = mixins l.
Proof. unfold mixins, overwrite. rewrite map_map. apply map_ext. intros [x v]. cbn. destruct (val_of x ls); reflexivity. Qed.
Lemma view_sees V o sl l m : is_view V o sl l -> sees V o m -> In m (mixins l).
Proof. intros H (sl' & l' & H' & Hm). destruct (view_fun _ _ _ _ _ _ H H') as [_ ->]. exact Hm. Qed.
Lemma value_mixins V V' o o' m x : V o = Some x -> V' o' = Some {| v_sealed := false; v_mixins := v_mixins x |} -> value V' o' m = value V o m.
Proof. intros H H'. unfold value. rewrite H, H'. destruct x as [sl [l|]]; reflexivity. Qed.
Lemma value_over V V' o src m sl sl' l ls : is_view V src sl' ls -> is_view V' o sl (overwrite l ls) -> sees V src m -> sees V' o m -> value V' o m = value V src m.
Proof.
  intros A B S S'. rewrite (value_view _ _ _ _ _ A), (value_view _ _ _ _ _ B). apply (view_sees _ _ _ _ _ A) in S. apply (view_sees _ _ _ _ _ B) in S'. rewrite overwrite_mixins in S'.
  apply val_mixin in S. destruct S as (w & Hw). rewrite Hw. now apply overwrite_hit.
Qed.

Section Abs5.
Variable E : env.
Variable U : user.
Hypothesis AM : aligned_mixins E.
Notation Inv := (Inv E).

Lemma pass_value s op s' o o' m : Inv s -> typed s -> fair E s op -> op_run E U op s = (s', Ok tt) -> passes op o o' -> sees (look s) o m -> sees (look s') o' m -> value (look s') o' m = value (look s) o m.
Proof.
  intros I Ty F Hr P S S'. destruct (simulates E U AM s op s' (Ok tt) I Ty F Hr) as [_ B]. destruct op; cbn [passes] in P; try contradiction; cbn [effect] in B.
  - destruct P as [-> ->]. destruct B as (sl & l & A1 & A2 & _). now rewrite (value_view _ _ _ _ _ A1), (value_view _ _ _ _ _ A2).
  - destruct P as [-> ->]. destruct (Nat.eqb_spec o' o) as [->|Hne]; [unfold value; now rewrite B|]. destruct B as (_ & sl & l & A1 & A2 & _). now rewrite (value_view _ _ _ _ _ A1), (value_view _ _ _ _ _ A2).
  - destruct unw; [contradiction|]. destruct P as [-> ->]. destruct B as [(y & B1 & B2)|[B _]]; [|discriminate]. eapply value_mixins; eauto.
  - destruct unw; [contradiction|]. destruct P as [-> ->]. destruct B as [(y & l & _ & B1 & B2)|[B _]]; [|discriminate]. eapply value_mixins; eauto.
  - destruct P as [-> ->]. destruct B as (sl & sl' & l & ls & B1 & B2 & B3). eapply value_over; eauto.
  - destruct P as (-> & -> & Hne). destruct (Nat.eqb_spec o' o) as [->|_]; [congruence|]. destruct B as ((sl & sl' & l & ls & B1 & B2 & B3) & _). eapply value_over; eauto.
Qed.
Lemma journey_value s o s' o' m : Inv s -> typed s -> journey E U m s o s' o' -> Inv s' /\ typed s' /\ value (look s') o' m = value (look s) o m /\ sees (look s) o m /\ sees (look s') o' m.
Proof.
  intros I Ty H. induction H as [s o S|s o s1 o1 op s2 res H IH F Hr L S|s o s1 o1 op s2 o2 H IH F Hr P S].
  - repeat (split; [auto|]); auto.
  - destruct (IH I Ty) as (I1 & Ty1 & Hv & S0 & S1). destruct (typed_after E U AM s1 op s2 res I1 Ty1 F Hr) as (_ & I2 & Ty2). repeat (split; [auto|]); auto. rewrite <- Hv.
    pose proof S1 as S1'. apply sees_value in S1'. destruct S1' as (v & S1'). rewrite S1'. exact (step_value E U AM s1 op s2 res o1 m v I1 Ty1 F Hr S1' L S).
  - destruct (IH I Ty) as (I1 & Ty1 & Hv & S0 & S1). destruct (typed_after E U AM s1 op s2 (Ok tt) I1 Ty1 F Hr) as (_ & I2 & Ty2). repeat (split; [auto|]); auto. rewrite <- Hv. eapply pass_value; eauto.
Qed.
(** What a program leaves in a mixin is what it finds there later. *)
Lemma use_journey s o i k s1 res m p v s2 o2 : Inv s -> typed s -> fair E s (OUse o i k) -> op_run E U (OUse o i k) s = (s1, res) -> holds s1 o i m p v -> journey E U m s1 o s2 o2 ->
  exists j q, holds s2 o2 j m q v.
Proof.
  intros I Ty F Hr Hh J. destruct (typed_after E U AM s _ s1 res I Ty F Hr) as (_ & I1 & Ty1). destruct (journey_value s1 o s2 o2 m I1 Ty1 J) as (I2 & Ty2 & Hv & S1 & S2).
  destruct S1 as (sl & l & V1 & _). destruct (view_shown E s1 o sl l I1 Ty1 V1) as [Sh1 _]. assert (H1 : val_of m l = Some v) by (apply (val_shown E AM s1 o l m v I1 Ty1 Sh1); eauto).
  destruct S2 as (sl2 & l2 & V2 & _). destruct (view_shown E s2 o2 sl2 l2 I2 Ty2 V2) as [Sh2 _]. rewrite (value_view _ _ _ _ _ V2), (value_view _ _ _ _ _ V1), H1 in Hv.
  apply (val_shown E AM s2 o2 l2 m v I2 Ty2 Sh2). exact Hv.
Qed.
End Abs5.
