(** Proofs: the clash that a text names *)
From Coq Require Import List Arith ZArith NArith Lia Bool Permutation.
From Verif Require Import Base Sv BaseLemmas Info Registry TypeMut Rules TypeBuild TypeBuildProofs Domain FtableProofs Define Texts.
Import ListNotations.

Section C.
Variable E : env.
Variable fid : fptr -> option nat.
Variable mid : mptr -> option nat.

Lemma pair_some l : has_clash l = true -> exists a b, clash_pair l = Some (a, b).
Proof.
  induction l as [|x [|y l] IH]; cbn [has_clash clash_pair]; try discriminate. destruct (_ && _); [eauto|]. exact IH.
Qed.
Lemma pair_in l a b : clash_pair l = Some (a, b) -> exists u v, l = u ++ a :: b :: v /\ ff_bid (fp_data a) = ff_bid (fp_data b) /\ ff_prio (fp_data a) = ff_prio (fp_data b).
Proof.
  induction l as [|x [|y l] IH]; cbn [clash_pair]; try discriminate. destruct (_ && _) eqn:C.
  - intros [= -> ->]. apply andb_true_iff in C as [C1 C2]. apply Z.eqb_eq in C1, C2. exists [], l. auto.
  - intros H. destruct (IH H) as (u & v & Q & R). exists (x :: u), v. rewrite Q. auto.
Qed.
Lemma at_sorted ms k : clash_at E fid ms k = match sorted_pls E fid k ms with [] => None | top :: r => if f_allow_clashes (e_feature E (ff_info (fp_data top))) then None else clash_pair (top :: r) end.
Proof. reflexivity. Qed.
Lemma at_some ms k : clash_test E (sorted_pls E fid k ms) = true -> exists p, clash_at E fid ms k = Some p.
Proof.
  rewrite at_sorted. destruct (sorted_pls E fid k ms) as [|top r]; cbn [clash_test]; [discriminate|]. destruct (f_allow_clashes _); cbn [negb andb]; [discriminate|]. intros H.
  destruct (pair_some _ H) as (a & b & Q). eauto.
Qed.
Lemma from_some ms ks k : In k ks -> (exists p, clash_at E fid ms k = Some p) -> exists p k', clash_from E fid ms ks = Some p /\ clash_at E fid ms k' = Some p.
Proof.
  induction ks as [|k0 ks IH]; intros I H; [destruct I|]. cbn [clash_from]. destruct (clash_at E fid ms k0) as [p|] eqn:Q; [eauto|]. destruct I as [->|I]; [destruct H as [p H]; congruence|]. auto.
Qed.
Lemma counts_valid fs : forall c c', count_pls fid fs c = Ok c' -> all_valid fid fs.
Proof.
  induction fs as [|[i f] fs IH]; cbn [count_pls]; intros c c' H j g; [intros []|]. destruct (fid (ff_info f)) eqn:Q; [|discriminate]. destruct (nth_error c n); [|discriminate].
  intros [[= <- <-]|I]; [congruence|]. exact (IH _ _ H j g I).
Qed.
Lemma none_before ms : forall k j, j < k -> filter (fun x : nat * ffm => fst x =? j) (flat_map (fun im => map (pair (fst im)) (m_features (e_mixin E (snd im)))) (enumerate k ms)) = [].
Proof.
  induction ms as [|m ms IH]; intros k j H; [reflexivity|]. cbn [enumerate flat_map fst snd]. rewrite filter_app, IH by lia. rewrite app_nil_r.
  induction (m_features (e_mixin E m)) as [|f l IHl]; [reflexivity|]. cbn. destruct (Nat.eqb_spec k j); [lia|]. exact IHl.
Qed.
Lemma of_index ms : forall k i m, nth_error ms i = Some m ->
  filter (fun x : nat * ffm => fst x =? k + i) (flat_map (fun im => map (pair (fst im)) (m_features (e_mixin E (snd im)))) (enumerate k ms)) = map (pair (k + i)) (m_features (e_mixin E m)).
Proof.
  induction ms as [|m0 ms IH]; intros k [|i] m H; try discriminate; cbn [enumerate flat_map fst snd]; rewrite filter_app.
  - cbn in H. injection H as ->. rewrite Nat.add_0_r, none_before by lia. rewrite app_nil_r. induction (m_features (e_mixin E m)) as [|f l IHl]; [reflexivity|]. cbn. rewrite Nat.eqb_refl. cbn. now rewrite IHl.
  - cbn in H. replace (k + S i) with (S k + i) by lia. rewrite (IH (S k) i m H).
    assert (filter (fun x : nat * ffm => fst x =? S k + i) (map (pair k) (m_features (e_mixin E m0))) = []) as ->; [|reflexivity].
    induction (m_features (e_mixin E m0)) as [|f l IHl]; [reflexivity|]. cbn [map filter fst]. destruct (Nat.eqb_spec k (S k + i)); [lia|]. exact IHl.
Qed.
Lemma filter_perm {A} (f : A -> bool) l l' : Permutation l l' -> Permutation (filter f l) (filter f l').
Proof.
  induction 1; cbn; auto.
  - destruct (f x); auto.
  - destruct (f x), (f y); auto. constructor.
  - etransitivity; eauto.
Qed.
Lemma filter_comm {A} (f g : A -> bool) l : filter f (filter g l) = filter g (filter f l).
Proof. induction l as [|y l IHl]; [reflexivity|]. cbn. destruct (g y) eqn:Y1, (f y) eqn:Y2; cbn; rewrite ?Y1, ?Y2, ?IHl; reflexivity. Qed.
Lemma clash_said ms c : NoDup ms -> ftable_counts E fid ms = Ok c -> build_ftable E fid ms c = Throw EFeatureClash ->
  exists a b ma mb f, clash_of E fid ms = Some (a, b) /\ nth_error ms (fp_mixin a) = Some ma /\ nth_error ms (fp_mixin b) = Some mb /\
    In (fp_data a) (m_features (e_mixin E ma)) /\ In (fp_data b) (m_features (e_mixin E mb)) /\ ff_bid (fp_data a) = ff_bid (fp_data b) /\ ff_prio (fp_data a) = ff_prio (fp_data b) /\
    fid (ff_info (fp_data a)) = fid f /\ fid (ff_info (fp_data b)) = fid f /\ fid f <> None /\ f_allow_clashes (e_feature E f) = false /\
    (ma = mb -> NoDup (m_features (e_mixin E ma)) -> fp_data a <> fp_data b).
Proof.
  intros ND HC HB. assert (V : all_valid fid (all_features E ms)) by (unfold ftable_counts in HC; eapply counts_valid; eauto).
  destruct (build_ftable_spec E fid mid ms V) as (c' & HC' & [(k & K & _)|(_ & ft & HB' & _)]); rewrite HC in HC'; injection HC' as <-; [|congruence].
  assert (k < ftable_size fid (all_features E ms)) as KL.
  { destruct (Nat.lt_ge_cases k (ftable_size fid (all_features E ms))) as [|G]; auto. unfold sorted_pls in K. rewrite (L_nil_beyond E fid mid ms k G) in K. discriminate. }
  destruct (from_some ms (seq 0 (ftable_size fid (all_features E ms))) k) as ([a b] & k' & F & AT); [apply in_seq; lia|now apply at_some|].
  rewrite at_sorted in AT. destruct (sorted_pls E fid k' ms) as [|top r] eqn:SP; [discriminate|]. destruct (f_allow_clashes _) eqn:AL; [discriminate|].
  destruct (pair_in _ _ _ AT) as (u & v & Q & B1 & B2). assert (P : Permutation (top :: r) (map mkpl (L fid k' (all_features E ms)))) by (rewrite <- SP; apply sort_by_perm).
  assert (IN : forall x, In x (top :: r) -> exists i f, x = mkpl (i, f) /\ In (i, f) (all_features E ms) /\ fid (ff_info f) = Some k').
  { intros x I. apply (Permutation_in _ P), in_map_iff in I as ([i f] & <- & I). apply filter_In in I as [I1 I2]. exists i, f. split; auto. split; auto. unfold is_k in I2. cbn in I2. destruct (opt_eqb_spec (fid (ff_info f)) (Some k')); congruence. }
  destruct (IN top) as (it & ft & -> & _ & T3); [now left|]. destruct (IN a) as (ia & fa & EA & A2 & A3); [rewrite Q; apply in_or_app; right; now left|].
  destruct (IN b) as (ib & fb & EB & A4 & A5); [rewrite Q; apply in_or_app; right; right; now left|]. apply all_features_in in A2 as (ma & M1 & M2). apply all_features_in in A4 as (mb & M3 & M4).
  exists a, b, ma, mb, (ff_info ft). unfold clash_of. cbn in AL. rewrite EA, EB in *. cbn [mkpl fst snd fp_mixin fp_data] in *. repeat (split; auto; try congruence).
  intros <- ND2 <-. assert (ib = ia) as ->. { apply (proj1 (NoDup_nth_error ms) ND); [apply nth_error_Some; congruence|congruence]. }
  rewrite Q in P. assert (P2 : Permutation (map (fun x => (fp_mixin x, fp_data x)) (u ++ mkpl (ia, fa) :: mkpl (ia, fa) :: v)) (L fid k' (all_features E ms))).
  { etransitivity; [apply Permutation_map, P|]. rewrite map_map, (map_ext _ (fun x => x)), map_id; [reflexivity|]. intros [i f]. reflexivity. }
  assert (P3 : NoDup (filter (fun x : nat * ffm => fst x =? ia) (L fid k' (all_features E ms)))).
  { unfold L. rewrite filter_comm.
    apply NoDup_filter. pose proof (of_index ms 0 ia ma M1) as O. cbn [Nat.add] in O. unfold all_features. rewrite O. apply FinFun.Injective_map_NoDup; auto. intros x y [=]. auto. }
  apply (filter_perm (fun x => fst x =? ia)) in P2. apply (Permutation_NoDup (Permutation_sym P2)) in P3. rewrite map_app, filter_app in P3. cbn in P3. rewrite Nat.eqb_refl in P3.
  apply NoDup_remove_2 in P3. apply P3. apply in_or_app. right. now left.
Qed.
End C.
