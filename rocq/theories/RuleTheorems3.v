(** Type mutations and the rules shipped with the library *)
From Coq Require Import List Arith ZArith NArith Lia Bool Permutation Sorted.
From Verif Require Import Base Sv Info Registry TypeMut Rules TypeBuild TypeQuery Domain SpecReg SpecDom SpecOrd SpecRule SpecList
  BaseLemmas SvProofs RegistryProofs CmpProofs TypeBuildProofs LayoutProofs ElemProofs TypesProofs HistProofs RegTheorems DomTheorems RuleTheorems RuleTheorems2.
Import ListNotations.

Section R.
Variable E : env.

Lemma erase_first_none p l : (forall x, In x l -> p x = false) -> erase_first p l = l.
Proof. induction l as [|x l IH]; intros H; auto. simpl. rewrite (H x) by (simpl; auto). f_equal. apply IH. intros; apply H; simpl; auto. Qed.
Lemma erase_first_at p l1 m l2 : (forall x, In x l1 -> p x = false) -> p m = true -> erase_first p (l1 ++ m :: l2) = l1 ++ l2.
Proof. induction l1 as [|x l1 IH]; intros H Hm; simpl; [now rewrite Hm|]. rewrite (H x) by (simpl; auto). f_equal. apply IH; auto. intros; apply H; simpl; auto. Qed.
Lemma find_none p (l : list mptr) : (forall x, In x l -> p x = false) -> find p l = None.
Proof. induction l as [|x l IH]; intros H; auto. simpl. rewrite (H x) by (simpl; auto). apply IH. intros; apply H; simpl; auto. Qed.
Lemma find_at p (l1 : list mptr) m l2 : (forall x, In x l1 -> p x = false) -> p m = true -> find p (l1 ++ m :: l2) = Some m.
Proof. induction l1 as [|x l1 IH]; intros H Hm; simpl; [now rewrite Hm|]. rewrite (H x) by (simpl; auto). apply IH; auto. intros; apply H; simpl; auto. Qed.
Lemma eqb_none m l : ~ In m l -> forall x, In x l -> (m =? x) = false.
Proof. intros H x Hx. apply Nat.eqb_neq. intros ->. auto. Qed.
Lemma by_name_iff nm m : by_name E nm m = true <-> named E nm m.
Proof. unfold by_name, named. destruct (bytes_eqb_spec (sv_bytes (m_name (e_mixin E m))) nm); split; intros; auto; try discriminate; contradiction. Qed.
Lemma by_name_none nm l : (forall x, In x l -> ~ named E nm x) -> forall x, In x l -> by_name E nm x = false.
Proof. intros H x Hx. apply not_true_iff_false. rewrite by_name_iff. auto. Qed.
Lemma memb_not m l : ~ In m l -> memb m l = false.
Proof. intros H. apply not_true_iff_false. now rewrite memb_true. Qed.
Lemma memb_mid m (l1 l2 : list mptr) : memb m (l1 ++ m :: l2) = true.
Proof. apply memb_true, in_or_app. simpl. auto. Qed.

Lemma dedup_inner_spec x l : dedup_inner (Some x) l = if in_dec Nat.eq_dec x l then None else Some x.
Proof.
  assert (H0 : forall l, dedup_inner None l = None). { induction l0 as [|y l0 IH]; auto. }
  induction l as [|y l IH]; [reflexivity|]. cbn [dedup_inner opt_eqb]. destruct (Nat.eqb_spec x y) as [->|Hne].
  - rewrite H0. destruct (in_dec Nat.eq_dec y (y :: l)) as [_|Hn]; auto. exfalso. apply Hn. now left.
  - rewrite IH. destruct (in_dec Nat.eq_dec x l) as [Hi|Hi]; destruct (in_dec Nat.eq_dec x (y :: l)) as [Hj|Hj]; auto.
    + exfalso. apply Hj. now right.
    + exfalso. destruct Hj; auto. 
Qed.
Lemma dedup_spec l : last_only l (tm_dedup l).
Proof.
  induction l as [|x l IH]; [constructor|]. unfold tm_dedup in *. cbn [dedup_mark]. rewrite dedup_inner_spec.
  destruct (in_dec Nat.eq_dec x l); simpl; constructor; auto.
Qed.
Lemma last_only_fun l r r' : last_only l r -> last_only l r' -> r = r'.
Proof. intros H. revert r'. induction H; intros r' H'; inversion H'; subst; auto; try contradiction. f_equal. auto. Qed.
Lemma last_only_in l r x : last_only l r -> (In x r <-> In x l).
Proof. induction 1 as [|y l r Hn H IH|y l r Hn H IH]; simpl; [tauto|tauto|]. rewrite IH. split; auto. intros [->|]; auto. Qed.
Lemma last_only_nodup l r : last_only l r -> NoDup r.
Proof. induction 1; auto; constructor; auto. rewrite last_only_in; eauto. Qed.

Lemma c32_dedup l : last_only l (tm_dedup l) /\ NoDup (tm_dedup l) /\ (forall x, In x (tm_dedup l) <-> In x l).
Proof. assert (H := dedup_spec l). split; auto. split; [eapply last_only_nodup; eauto|]. intros x. now apply last_only_in. Qed.
Lemma c32_add m l : tm_add m l = l ++ [m] /\
  (In m l -> tm_add_if_lacking m l = l) /\ (~ In m l -> tm_add_if_lacking m l = l ++ [m]) /\ (tm_has m l = true <-> In m l).
Proof.
  split; [reflexivity|]. unfold tm_add_if_lacking, tm_has. split; [intros H; now rewrite (proj2 (memb_true m l) H)|].
  split; [intros H; now rewrite (memb_not m l H)|apply memb_true].
Qed.
Lemma c32_remove m l : (~ In m l -> tm_remove m l = (l, false) /\ tm_to_back m l = Throw EToBackMissing) /\
  (forall l1 l2, l = l1 ++ m :: l2 -> ~ In m l1 -> tm_remove m l = (l1 ++ l2, true) /\ tm_to_back m l = Ok (l1 ++ l2 ++ [m])).
Proof.
  unfold tm_remove, tm_to_back. split.
  - intros H. rewrite (memb_not m l H), erase_first_none; auto. now apply eqb_none.
  - intros l1 l2 -> H. rewrite memb_mid, erase_first_at; [now rewrite app_assoc| |apply Nat.eqb_refl]. now apply eqb_none.
Qed.
Lemma c32_by_name nm l :
  ((forall x, In x l -> ~ named E nm x) -> tm_has_name E nm l = None /\ tm_remove_name E nm l = (l, None) /\ tm_to_back_name E nm l = Throw EToBackMissing) /\
  (forall l1 m l2, l = l1 ++ m :: l2 -> (forall x, In x l1 -> ~ named E nm x) -> named E nm m ->
     tm_has_name E nm l = Some m /\ tm_remove_name E nm l = (l1 ++ l2, Some m) /\ tm_to_back_name E nm l = Ok (l1 ++ l2 ++ [m])).
Proof.
  unfold tm_has_name, tm_remove_name, tm_to_back_name. split.
  - intros H. rewrite find_none, erase_first_none; auto; now apply by_name_none.
  - intros l1 m l2 -> H Hm. apply by_name_iff in Hm. rewrite find_at, erase_first_at; auto; try (now apply by_name_none). now rewrite app_assoc.
Qed.
Lemma c32_add_by_name (lk : lookup) nm l :
  (forall m, lk nm = Some m -> tm_add_name lk nm l = Ok (l ++ [m]) /\ tm_safe_add lk nm l = l ++ [m]) /\
  (lk nm = None -> tm_add_name lk nm l = Throw EAddUnknown /\ tm_safe_add lk nm l = l) /\
  ((exists x, In x l /\ named E nm x) -> tm_add_if_lacking_name E lk nm l = Ok l /\ tm_safe_add_if_lacking E lk nm l = l) /\
  ((forall x, In x l -> ~ named E nm x) ->
     tm_add_if_lacking_name E lk nm l = tm_add_name lk nm l /\ tm_safe_add_if_lacking E lk nm l = tm_safe_add lk nm l).
Proof.
  unfold tm_add_name, tm_safe_add, tm_add_if_lacking_name, tm_safe_add_if_lacking. split; [intros m ->; auto|]. split; [intros ->; auto|]. split.
  - intros (x & Hx & Hn). destruct (find (by_name E nm) l) eqn:Hf; auto. apply by_name_iff in Hn. exfalso. assert (Hb := List.find_none _ _ Hf x Hx). congruence.
  - intros H. rewrite find_none; auto; now apply by_name_none.
Qed.
Lemma c32_implements f nm l :
  (tm_implements_strong E f l = true <-> exists m, In m l /\ lists_feature E m f) /\
  (tm_implements E f l = true <-> f_default (e_feature E f) <> None \/ exists m, In m l /\ lists_feature E m f) /\
  match tm_implements_strong_name E nm l with
  | Some g => sv_bytes (f_name (e_feature E g)) = nm /\ exists m, In m l /\ lists_feature E m g
  | None => forall m g, In m l -> lists_feature E m g -> sv_bytes (f_name (e_feature E g)) <> nm
  end.
Proof.
  assert (H1 : tm_implements_strong E f l = true <-> exists m, In m l /\ lists_feature E m f).
  { unfold tm_implements_strong, lists_feature. rewrite existsb_exists. split; intros (m & Hm & H); exists m; (split; [auto|]).
    - apply existsb_exists in H. destruct H as (x & Hx & He). apply Nat.eqb_eq in He. subst. now apply in_map.
    - apply existsb_exists. apply in_map_iff in H. destruct H as (x & He & Hx). exists x. split; auto. now apply Nat.eqb_eq. }
  split; auto. split.
  - unfold tm_implements. destruct (f_default (e_feature E f)).
    + split; auto. intros _. left. discriminate.
    + rewrite H1. split; auto. intros [H|H]; auto. congruence.
  - induction l as [|m l IH]; simpl; [intros m g []|].
    destruct (find _ (m_features (e_mixin E m))) as [x|] eqn:Hf.
    + apply find_some in Hf. destruct Hf as [Hx Hn]. split.
      * destruct (bytes_eqb_spec (sv_bytes (f_name (e_feature E (ff_info x)))) nm); auto; discriminate.
      * exists m. split; auto. unfold lists_feature. now apply in_map.
    + assert (IH' : match tm_implements_strong_name E nm l with
        | Some g => sv_bytes (f_name (e_feature E g)) = nm /\ exists m0, In m0 l /\ lists_feature E m0 g
        | None => forall m0 g, In m0 l -> lists_feature E m0 g -> sv_bytes (f_name (e_feature E g)) <> nm end).
      { apply IH. unfold tm_implements_strong, lists_feature. rewrite existsb_exists. split; intros (y & Hm & H); exists y; (split; [auto|]).
        - apply existsb_exists in H. destruct H as (x & Hx & He). apply Nat.eqb_eq in He. subst. now apply in_map.
        - apply existsb_exists. apply in_map_iff in H. destruct H as (x & He & Hx). exists x. split; auto. now apply Nat.eqb_eq. }
      destruct (tm_implements_strong_name E nm l) as [g|].
      * destruct IH' as (A & y & B & C). split; auto. exists y. auto.
      * intros y g [<-|Hy] Hg; [|eauto]. unfold lists_feature in Hg. apply in_map_iff in Hg. destruct Hg as (x & <- & Hx).
        assert (Hb := List.find_none _ _ Hf x Hx). simpl in Hb. destruct (bytes_eqb_spec (sv_bytes (f_name (e_feature E (ff_info x)))) nm); auto; discriminate.
Qed.

(** ** C53 *)
Lemma mutex_none infos b l : (forall x, In x l -> ~ In x infos) -> mutex_erase infos b l = l.
Proof.
  induction l as [|x l IH]; intros H; auto. simpl. rewrite (memb_not x infos) by (apply H; simpl; auto). f_equal. apply IH. intros; apply H; simpl; auto.
Qed.
Lemma without_app xs a b : without xs (a ++ b) = without xs a ++ without xs b.
Proof. unfold without. apply filter_app. Qed.
Lemma without_rev xs l : without xs (rev l) = rev (without xs l).
Proof.
  induction l as [|x l IH]; auto. simpl. rewrite without_app, IH. unfold without at 2 3. simpl. destruct (in_dec Nat.eq_dec x xs); simpl; auto. now rewrite app_nil_r.
Qed.
Lemma mutex_found infos l : mutex_erase infos true l = without infos l.
Proof.
  induction l as [|x l IH]; auto. simpl. unfold without. simpl. destruct (in_dec Nat.eq_dec x infos) as [Hi|Hi].
  - now rewrite (proj2 (memb_true x infos) Hi), IH.
  - rewrite (memb_not _ _ Hi), IH. reflexivity.
Qed.
Lemma mutex_at infos l1 m l2 : (forall x, In x l1 -> ~ In x infos) -> In m infos -> mutex_erase infos false (l1 ++ m :: l2) = l1 ++ m :: without infos l2.
Proof.
  induction l1 as [|x l1 IH]; intros H Hm; simpl.
  - now rewrite (proj2 (memb_true m infos) Hm), mutex_found.
  - rewrite (memb_not x infos) by (apply H; simpl; auto). f_equal. apply IH; auto. intros; apply H; simpl; auto.
Qed.
Lemma c53_mutex infos v l :
  ((forall x, In x l -> ~ In x infos) -> rule_v1_mutex infos v l = RuleOk l) /\
  (forall l1 m l2, l = l1 ++ m :: l2 -> In m infos -> (forall x, In x l2 -> ~ In x infos) ->
     rule_v1_mutex infos v l = RuleOk (without infos l1 ++ m :: l2)).
Proof.
  unfold rule_v1_mutex. split.
  - intros H. rewrite mutex_none, rev_involutive; auto. intros x Hx. apply H. now apply in_rev.
  - intros l1 m l2 -> Hm H. rewrite rev_app_distr. simpl. rewrite <- app_assoc. simpl. rewrite mutex_at; auto.
    + rewrite without_rev, rev_app_distr. simpl. now rewrite !rev_involutive, <- app_assoc.
    + intros x Hx. apply H. now apply in_rev.
Qed.
Lemma last_such (P : mptr -> Prop) : (forall x, {P x} + {~ P x}) -> forall l : list mptr,
  (forall x, In x l -> ~ P x) \/ exists l1 m l2, l = l1 ++ m :: l2 /\ P m /\ forall x, In x l2 -> ~ P x.
Proof.
  intros D. induction l as [|x l IH]; [left; intros x []|]. destruct IH as [IH|(l1 & m & l2 & -> & H1 & H2)].
  - destruct (D x) as [Hx|Hx].
    + right. exists [], x, l. auto.
    + left. intros y [<-|Hy]; auto.
  - right. exists (x :: l1), m, l2. auto.
Qed.
Lemma without_not_in xs l x : In x (without xs l) -> ~ In x xs.
Proof. unfold without. rewrite filter_In. intros [_ H]. destruct (in_dec Nat.eq_dec x xs); auto; discriminate. Qed.
Lemma without_id xs l : (forall x, In x l -> ~ In x xs) -> without xs l = l.
Proof.
  intros H. unfold without. induction l as [|x l IH]; auto. simpl. destruct (in_dec Nat.eq_dec x xs) as [Hi|_]; [exfalso; apply (H x); simpl; auto|].
  f_equal. apply IH. intros; apply H; simpl; auto.
Qed.
Lemma c53_mutex_idem infos v l l' : rule_v1_mutex infos v l = RuleOk l' -> rule_v1_mutex infos v l' = RuleOk l'.
Proof.
  destruct (last_such (fun x => In x infos) (fun x => in_dec Nat.eq_dec x infos) l) as [H|(l1 & m & l2 & -> & Hm & H2)].
  - rewrite (proj1 (c53_mutex infos v l) H). intros [= <-]. now apply c53_mutex.
  - rewrite (proj2 (c53_mutex infos v (l1 ++ m :: l2)) l1 m l2 eq_refl Hm H2). intros [= <-].
    rewrite (proj2 (c53_mutex infos v _) (without infos l1) m l2 eq_refl Hm H2), without_id; auto. apply without_not_in.
Qed.
Lemma c53_mandatory m v l : rule_v1_mandatory m v l = RuleOk (if in_dec Nat.eq_dec m l then l else l ++ [m]) /\
  forall l', rule_v1_mandatory m v l = RuleOk l' -> rule_v1_mandatory m v l' = RuleOk l'.
Proof.
  assert (H : forall l, rule_v1_mandatory m v l = RuleOk (if in_dec Nat.eq_dec m l then l else l ++ [m])).
  { intros l0. unfold rule_v1_mandatory. destruct (in_dec Nat.eq_dec m l0) as [Hi|Hi]; f_equal; now apply c32_add. }
  split; auto. intros l'. rewrite !H. intros [= <-]. destruct (in_dec Nat.eq_dec m l) as [Hi|Hi].
  - destruct (in_dec Nat.eq_dec m l); [auto|contradiction].
  - destruct (in_dec Nat.eq_dec m (l ++ [m])) as [_|Hn]; auto. exfalso. apply Hn, in_or_app. simpl. auto.
Qed.
Lemma c53_deprecated m v l : (~ In m l -> rule_v1_deprecated m v l = RuleOk l) /\
  (forall l1 l2, l = l1 ++ m :: l2 -> ~ In m l1 -> rule_v1_deprecated m v l = RuleOk (l1 ++ l2)) /\
  (NoDup l -> forall l', rule_v1_deprecated m v l = RuleOk l' -> ~ In m l' /\ rule_v1_deprecated m v l' = RuleOk l').
Proof.
  assert (A : forall l, ~ In m l -> rule_v1_deprecated m v l = RuleOk l).
  { intros l0 H. unfold rule_v1_deprecated. now rewrite (proj1 (proj1 (c32_remove m l0) H)). }
  assert (B : forall l l1 l2, l = l1 ++ m :: l2 -> ~ In m l1 -> rule_v1_deprecated m v l = RuleOk (l1 ++ l2)).
  { intros l0 l1 l2 Hl H. unfold rule_v1_deprecated. now rewrite (proj1 (proj2 (c32_remove m l0) l1 l2 Hl H)). }
  split; auto. split; eauto. intros Hnd l' Hl'. assert (Hn : ~ In m l').
  { destruct (in_dec Nat.eq_dec m l) as [Hi|Hi].
    - apply in_split in Hi. destruct Hi as (l1 & l2 & ->). assert (Hx := NoDup_remove_2 _ _ _ Hnd).
      rewrite (B _ l1 l2 eq_refl) in Hl'; [now injection Hl' as <-|]. intros H. apply Hx, in_or_app. auto.
    - rewrite (A _ Hi) in Hl'. now injection Hl' as <-. }
  split; auto.
Qed.
Lemma c53_substitute src tgt v l : (~ In src l -> rule_v1_substitute src tgt v l = RuleOk l) /\
  (forall l1 l2, l = l1 ++ src :: l2 -> ~ In src l1 -> rule_v1_substitute src tgt v l = RuleOk (l1 ++ l2 ++ [tgt])) /\
  (NoDup l -> src <> tgt -> forall l', rule_v1_substitute src tgt v l = RuleOk l' -> rule_v1_substitute src tgt v l' = RuleOk l').
Proof.
  assert (A : forall l, ~ In src l -> rule_v1_substitute src tgt v l = RuleOk l).
  { intros l0 H. unfold rule_v1_substitute, tm_has. now rewrite (memb_not _ _ H). }
  assert (B : forall l l1 l2, l = l1 ++ src :: l2 -> ~ In src l1 -> rule_v1_substitute src tgt v l = RuleOk (l1 ++ l2 ++ [tgt])).
  { intros l0 l1 l2 Hl H. unfold rule_v1_substitute, tm_has. rewrite (proj1 (proj2 (c32_remove src l0) l1 l2 Hl H)), Hl, memb_mid. unfold tm_add. simpl. now rewrite app_assoc. }
  split; auto. split; eauto. intros Hnd Hne l' Hl'. destruct (in_dec Nat.eq_dec src l) as [Hi|Hi].
  - apply in_split in Hi. destruct Hi as (l1 & l2 & ->). assert (Hx := NoDup_remove_2 _ _ _ Hnd).
    rewrite (B _ l1 l2 eq_refl) in Hl'; [|intros H; apply Hx, in_or_app; auto]. injection Hl' as <-. apply A.
    intros H. apply in_app_or in H. destruct H as [H|H]; [apply Hx, in_or_app; auto|]. apply in_app_or in H. destruct H as [H|[H|[]]]; [apply Hx, in_or_app; auto|congruence].
  - rewrite (A _ Hi) in Hl'. injection Hl' as <-. auto.
Qed.

Lemma fold_lacking xs : forall l, completed xs l (fold_left (fun acc i => tm_add_if_lacking i acc) xs l).
Proof.
  induction xs as [|x xs IH]; intros l; simpl; [constructor|]. destruct (in_dec Nat.eq_dec x l) as [Hi|Hi].
  - rewrite (proj1 (proj2 (c32_add x l)) Hi). apply co_has; auto.
  - rewrite (proj1 (proj2 (proj2 (c32_add x l))) Hi). apply co_add; auto.
Qed.
Lemma completed_in xs l r : completed xs l r -> (forall x, In x r <-> In x l \/ In x xs).
Proof.
  induction 1 as [l|x xs l r Hx H IH|x xs l r Hx H IH]; intros y; simpl; [tauto| |].
  - rewrite IH. split; [tauto|]. intros [?|[<-|?]]; auto.
  - rewrite IH, in_app_iff. simpl. tauto.
Qed.
Lemma completed_self xs l r : completed xs l r -> (forall x, In x xs -> In x l) -> r = l.
Proof.
  induction 1 as [l|x xs l r Hx H IH|x xs l r Hx H IH]; intros Ha; auto.
  - apply IH. intros; apply Ha; simpl; auto.
  - exfalso. apply Hx, Ha. simpl. auto.
Qed.
Lemma completed_idem xs l r r' : completed xs l r -> completed xs r r' -> r' = r.
Proof. intros H H'. eapply completed_self; eauto. intros x Hx. apply (completed_in _ _ _ H). auto. Qed.

Lemma c53_oneshot master infos v l : (~ In master l -> rule_v1_oneshot master infos v l = RuleOk l) /\
  (In master l -> exists l', rule_v1_oneshot master infos v l = RuleOk l' /\ completed infos l l') /\
  (forall l', rule_v1_oneshot master infos v l = RuleOk l' -> rule_v1_oneshot master infos v l' = RuleOk l').
Proof.
  unfold rule_v1_oneshot, tm_has. split; [|split].
  - intros H. now rewrite (memb_not _ _ H).
  - intros H. rewrite (proj2 (memb_true _ _) H). eexists. split; [reflexivity|apply fold_lacking].
  - intros l' [= Hl']. f_equal. destruct (memb master l) eqn:Hm.
    + assert (Hc := fold_lacking infos l). rewrite Hl' in Hc. destruct (memb master l'); auto.
      eapply completed_idem; eauto. apply fold_lacking.
    + subst. now rewrite Hm.
Qed.
Lemma fold_dep_err infos : forall z, fold_left (fun acc i => match acc with RuleErr e => RuleErr e
    | RuleOk a => if m_dependency (e_mixin E i) then RuleOk (tm_add_if_lacking i a) else RuleErr (-1) end) infos (RuleErr z) = RuleErr z.
Proof. induction infos as [|x infos IH]; intros z; simpl; auto. Qed.
Lemma fold_dep infos : forall l, fold_left (fun acc i => match acc with RuleErr e => RuleErr e
    | RuleOk a => if m_dependency (e_mixin E i) then RuleOk (tm_add_if_lacking i a) else RuleErr (-1) end) infos (RuleOk l) =
  if forallb (fun i => m_dependency (e_mixin E i)) infos then RuleOk (fold_left (fun acc i => tm_add_if_lacking i acc) infos l) else RuleErr (-1).
Proof.
  induction infos as [|x infos IH]; intros l; simpl; auto. destruct (m_dependency (e_mixin E x)); simpl; auto. apply fold_dep_err.
Qed.
Lemma c53_dep master infos v l : (~ In master l -> rule_v1_dep E master infos v l = RuleOk l) /\
  (In master l -> (forall x, In x infos -> m_dependency (e_mixin E x) = true) ->
     exists l', rule_v1_dep E master infos v l = RuleOk l' /\ completed infos l l') /\
  (In master l -> (exists x, In x infos /\ m_dependency (e_mixin E x) = false) -> exists z, rule_v1_dep E master infos v l = RuleErr z) /\
  (forall l', rule_v1_dep E master infos v l = RuleOk l' -> rule_v1_dep E master infos v l' = RuleOk l').
Proof.
  unfold rule_v1_dep, tm_has. split; [|split; [|split]].
  - intros H. now rewrite (memb_not _ _ H).
  - intros H Hd. rewrite (proj2 (memb_true _ _) H), fold_dep. rewrite (proj2 (forallb_forall _ _) Hd). eexists. split; [reflexivity|apply fold_lacking].
  - intros H (x & Hx & Hd). rewrite (proj2 (memb_true _ _) H), fold_dep. destruct (forallb _ infos) eqn:Hf; eauto.
    rewrite forallb_forall in Hf. rewrite (Hf x Hx) in Hd. discriminate.
  - intros l'. rewrite !fold_dep. destruct (forallb _ infos).
    + intros Hl'. assert (Hc := proj2 (proj2 (c53_oneshot master infos v l)) l'). unfold rule_v1_oneshot, tm_has in Hc.
      destruct (memb master l'); auto. destruct (memb master l); auto.
    + destruct (memb master l) eqn:Hm; [discriminate|]. intros [= <-]. now rewrite Hm.
Qed.

Lemma c53_dep' master infos v l : (~ In master l -> rule_v1_dep E master infos v l = RuleOk l) /\
  (In master l -> (forall x, In x infos -> m_dependency (e_mixin E x) = true) ->
     exists l', rule_v1_dep E master infos v l = RuleOk l' /\ completed infos l l' /\ forall x, In x infos -> In x l') /\
  (In master l -> (exists x, In x infos /\ m_dependency (e_mixin E x) = false) -> exists z, rule_v1_dep E master infos v l = RuleErr z) /\
  (forall l', rule_v1_dep E master infos v l = RuleOk l' -> rule_v1_dep E master infos v l' = RuleOk l').
Proof.
  destruct (c53_dep master infos v l) as (A & B & C & D). split; auto. split; auto. intros Hm Hd. destruct (B Hm Hd) as (l' & H1 & H2). exists l'.
  split; auto. split; auto. intros x Hx. apply (completed_in _ _ _ H2). auto.
Qed.

Lemma c53_basic_dep p x v l : (~ In p l -> rule_basic_dep p x v l = RuleOk l) /\
  (In p l -> rule_basic_dep p x v l = RuleOk (if in_dec Nat.eq_dec x l then l else l ++ [x])) /\
  (forall l', rule_basic_dep p x v l = RuleOk l' -> rule_basic_dep p x v l' = RuleOk l').
Proof.
  unfold rule_basic_dep, tm_has. split; [|split].
  - intros H. now rewrite (memb_not _ _ H).
  - intros H. rewrite (proj2 (memb_true _ _) H). f_equal. destruct (in_dec Nat.eq_dec x l) as [Hi|Hi]; now apply c32_add.
  - intros l' [= Hl']. f_equal. destruct (memb p l) eqn:Hm; [|subst; now rewrite Hm].
    destruct (memb p l'); auto. subst. destruct (in_dec Nat.eq_dec x l) as [Hi|Hi].
    + rewrite !(proj1 (proj2 (c32_add x l)) Hi). auto.
    + rewrite (proj1 (proj2 (proj2 (c32_add x l))) Hi). apply c32_add, in_or_app. simpl. auto.
Qed.

(** ** C55 *)
Lemma in_turn_keeps v rs m : (forall r f, In r rs -> r_apply (e_rule E r) = Some f -> keeps_mixin f m) ->
  forall l l', in_turn E v rs l (RuleOk l') -> In m l -> In m l'.
Proof.
  induction rs as [|r rs IH]; intros Hk l l'; simpl; [intros [= ->]; auto|]. intros (f & Hf & Ht) Hm.
  destruct (f v l) as [l1|z] eqn:Hfl; [|discriminate]. eapply IH; eauto; [intros; eapply Hk; simpl; eauto|]. eapply Hk; simpl; eauto.
Qed.
Lemma basic_dep_keeps p x m : keeps_mixin (rule_basic_dep p x) m.
Proof.
  intros v l l' [= <-] Hm. destruct (tm_has p l); auto. unfold tm_add_if_lacking. destruct (tm_has x l); auto. apply in_or_app. auto.
Qed.
Lemma in_turn_has v rs p x l l' : (forall r f, In r rs -> r_apply (e_rule E r) = Some f -> keeps_mixin f p /\ keeps_mixin f x) ->
  (exists r, In r rs /\ r_apply (e_rule E r) = Some (rule_basic_dep p x)) ->
  in_turn E v rs l (RuleOk l') -> In p l -> In x l'.
Proof.
  revert l. induction rs as [|r rs IH]; intros l Hk (r0 & Hr0 & Ha) Ht Hp; [destruct Hr0|].
  simpl in Ht. destruct Ht as (f & Hf & Ht). destruct (f v l) as [l1|z] eqn:Hfl; [|discriminate].
  assert (Hk' : forall r f, In r rs -> r_apply (e_rule E r) = Some f -> keeps_mixin f p /\ keeps_mixin f x) by (intros r' f' H' Hf'; exact (Hk r' f' (or_intror H') Hf')).
  destruct Hr0 as [->|Hr0].
  - rewrite Hf in Ha. injection Ha as ->. eapply in_turn_keeps; eauto; [intros; eapply Hk'; eauto|].
    rewrite (proj1 (proj2 (c53_basic_dep p x v l)) Hp) in Hfl. injection Hfl as <-. destruct (in_dec Nat.eq_dec x l); auto. apply in_or_app. simpl. auto.
  - eapply IH; eauto. destruct (Hk r f (or_introl eq_refl) Hf) as [H _]. eapply H; eauto.
Qed.
Lemma c55 tr w d a q w1 r t rule p x : regular_rules E -> current_history E tr w -> (no_deps E q \/ m_dependency (e_mixin E p) = false) ->
  0 < rule_count E tr d rule -> r_apply (e_rule E rule) = Some (rule_basic_dep p x) ->
  (forall r' f, 0 < rule_count E tr d r' -> r_apply (e_rule E r') = Some f -> keeps_mixin f p /\ keeps_mixin f x) ->
  get_type E a w d q = (w1, Ok r) -> w_type w1 r = Some t -> In p (t_mixins t) -> In x (t_mixins t).
Proof.
  intros Hr Hc Hd Hact Ha Hk Hg Ht Hp. destruct (c11 E tr w d a q w1 r t Hr Hc Hg Ht) as (rs & (_ & Hrs & _) & Hs).
  assert (Hk' : forall r f, In r rs -> r_apply (e_rule E r) = Some f -> keeps_mixin f p /\ keeps_mixin f x) by (intros r' f Hr' Hf; apply Hrs in Hr'; eauto).
  assert (Hex : exists r, In r rs /\ r_apply (e_rule E r) = Some (rule_basic_dep p x)) by (exists rule; split; auto; now apply Hrs).
  destruct Hs as [Hs|(Hnd & Hq & Hs)].
  - eapply in_turn_has; eauto.
  - destruct Hd as [Hd|Hd]; [contradiction|]. rewrite Hq in *. eapply in_turn_has; eauto.
    unfold without_deps. apply filter_In. rewrite Hd. auto.
Qed.

Definition supported (prims : mptr -> mptr -> Prop) (l : list mptr) : Prop :=
  forall x, In x l -> m_dependency (e_mixin E x) = true -> exists p, In p l /\ prims p x.
Lemma in_turn_supported prims v rs : (forall r, In r rs -> exists p x, r_apply (e_rule E r) = Some (rule_basic_dep p x) /\ prims p x) ->
  forall l l', in_turn E v rs l (RuleOk l') -> supported prims l -> supported prims l'.
Proof.
  induction rs as [|r rs IH]; intros Hr l l'; simpl; [intros [= ->]; auto|]. intros (f & Hf & Ht) Hs.
  destruct (Hr r (or_introl eq_refl)) as (p & x & Ha & Hpx). rewrite Hf in Ha. injection Ha as ->. cbn [rule_basic_dep] in Ht.
  apply (IH (fun r' H => Hr r' (or_intror H)) _ _ Ht). unfold tm_has. destruct (memb p l) eqn:Hm; auto. apply memb_true in Hm.
  destruct (in_dec Nat.eq_dec x l) as [Hi|Hi].
  - now rewrite (proj1 (proj2 (c32_add x l)) Hi).
  - rewrite (proj1 (proj2 (proj2 (c32_add x l))) Hi). intros y Hy Hd. apply in_app_or in Hy. destruct Hy as [Hy|[<-|[]]].
    + destruct (Hs y Hy Hd) as (p' & A & B). exists p'. split; auto. apply in_or_app. auto.
    + exists p. split; auto. apply in_or_app. auto.
Qed.
Lemma c55_alone tr w d a q w1 r t x : regular_rules E -> current_history E tr w ->
  (forall r', 0 < rule_count E tr d r' -> exists p y, r_apply (e_rule E r') = Some (rule_basic_dep p y)) ->
  get_type E a w d q = (w1, Ok r) -> w_type w1 r = Some t -> In x (t_mixins t) -> m_dependency (e_mixin E x) = true ->
  exists rule p, 0 < rule_count E tr d rule /\ r_apply (e_rule E rule) = Some (rule_basic_dep p x) /\ In p (t_mixins t).
Proof.
  intros Hr Hc Hall Hg Ht Hx Hd. apply current_cinv in Hc. destruct Hc as [HC Hrun].
  assert (Ha := get_type_asked E w a d q w1 r t (winv_run _ _ _ Hrun) (HC d) Hg Ht).
  pose proof (apply_rules_spec E (view E w d) (d_rules (w_dom w d)) q) as Ho. fold (asked E w d q) in Ho. rewrite Ha in Ho. simpl in Ho.
  destruct Ho as (k & _ & _ & Hp & _).
  pose (prims := fun p y => exists rule, 0 < rule_count E tr d rule /\ r_apply (e_rule E rule) = Some (rule_basic_dep p y)).
  assert (Hkeys : forall r, In r (map fst (d_rules (w_dom w d))) -> exists p y, r_apply (e_rule E r) = Some (rule_basic_dep p y) /\ prims p y).
  { intros r' Hr'. assert (Hr'' := proj1 (active_keys E Hr tr w d r' Hrun) Hr').
    destruct (Hall r' Hr'') as (p & y & Hpy). exists p, y. split; auto. exists r'. auto. }
  assert (Hs : supported prims (t_mixins t)).
  { assert (Hgen : forall n l l', passes E (view E w d) (map fst (d_rules (w_dom w d))) n l l' -> supported prims l -> supported prims l').
    { induction n as [|n IH]; intros l l' Hps; inversion Hps; subst; auto. intros Hsup. eapply in_turn_supported; eauto. }
    eapply Hgen; eauto. intros y Hy Hdy. apply filter_In in Hy. rewrite Hdy in Hy. destruct Hy; discriminate. }
  destruct (Hs x Hx Hd) as (p & Hp' & rule & H1 & H2). eauto.
Qed.
End R.
