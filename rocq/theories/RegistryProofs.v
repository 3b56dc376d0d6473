From Coq Require Import List Arith ZArith NArith Lia Bool.
From Verif Require Import Base Sv Info Registry BaseLemmas SvProofs.
Import ListNotations.

Definition reg_ok (idf : nat -> option nat) (s : list (option nat)) : Prop :=
  forall i p, nth_error s i = Some (Some p) -> idf p = Some i.

Lemma scan_fwd_some s k i : scan_fwd s k = Some i ->
  k <= i /\ nth_error s (i - k) = Some None /\ forall j, j < i - k -> exists p, nth_error s j = Some (Some p).
Proof.
  revert k i; induction s as [|[p|] s IH]; simpl; intros k i H; try discriminate.
  - apply IH in H. destruct H as (H1 & H2 & H3). split; [lia|].
    replace (i - k) with (S (i - S k)) by lia. split; auto.
    intros [|j] Hj; simpl; eauto. apply H3. lia.
  - injection H as <-. rewrite Nat.sub_diag. repeat split; auto. intros; lia.
Qed.
Lemma scan_fwd_none s k : scan_fwd s k = None -> forall j, j < length s -> exists p, nth_error s j = Some (Some p).
Proof.
  revert k; induction s as [|[p|] s IH]; simpl; intros k H j Hj; try discriminate; try lia.
  destruct j; simpl; eauto. eapply IH; eauto. lia.
Qed.

Lemma scan_fwd_app s k x :
  scan_fwd (s ++ [x]) k =
  match scan_fwd s k with
  | Some i => Some i
  | None => match x with None => Some (k + length s) | Some _ => None end
  end.
Proof.
  revert k; induction s as [|[p|] s IH]; simpl; intros k.
  - destruct x; simpl; f_equal; lia.
  - rewrite IH. destruct (scan_fwd s (S k)); auto. destruct x; auto. f_equal. lia.
  - auto.
Qed.

Lemma reg_ok_app_l idf s x : reg_ok idf (s ++ [x]) -> reg_ok idf s.
Proof. intros H i p Hi. apply H. now apply nth_error_app_l. Qed.
Lemma reg_ok_last idf s p : reg_ok idf (s ++ [Some p]) -> idf p = Some (length s).
Proof. intros H. apply H. rewrite nth_error_app2 by lia. now rewrite Nat.sub_diag. Qed.

Lemma scan_rev_spec name idf nm s : reg_ok idf s -> forall free,
  (exists p, In (Some p) s /\ sv_bytes (name p) = sv_bytes nm /\ scan_rev name idf nm (rev s) free = Throw EDuplicateName) \/
  ((forall p, In (Some p) s -> sv_bytes (name p) <> sv_bytes nm) /\
   scan_rev name idf nm (rev s) free = Ok (match scan_fwd s 0 with Some i => Some i | None => free end)).
Proof.
  induction s as [|x s IH] using rev_ind; intros Hok free.
  - right. simpl. split; auto; tauto.
  - rewrite rev_app_distr. simpl. rewrite rev_length, scan_fwd_app. simpl.
    assert (Hs := reg_ok_app_l _ _ _ Hok). destruct x as [p|].
    + rewrite (reg_ok_last _ _ _ Hok). simpl. rewrite Nat.eqb_refl. simpl.
      destruct (sv_eqb_spec (name p) nm) as [He|Hne].
      * left. exists p. split; auto. apply in_or_app; simpl; auto.
      * destruct (IH Hs free) as [(p' & Hin & Heq & Hr)|(Hn & Hr)].
        -- left. exists p'. rewrite Hr. split; auto. apply in_or_app; auto.
        -- right. split.
           ++ intros q Hq. apply in_app_or in Hq. destruct Hq as [Hq|[[= ->]|[]]]; auto.
           ++ rewrite Hr. destruct (scan_fwd s 0); auto.
    + destruct (IH Hs (Some (length s))) as [(p' & Hin & Heq & Hr)|(Hn & Hr)].
      * left. exists p'. rewrite Hr. split; auto. apply in_or_app; auto.
      * right. split.
        -- intros q Hq. apply in_app_or in Hq. destruct Hq as [Hq|[[=]|[]]]; auto.
        -- rewrite Hr. destruct (scan_fwd s 0); auto.
Qed.

Lemma sv_empty_spec s : sv_empty s = true <-> sv_bytes s = [].
Proof. unfold sv_empty. destruct (sv_bytes s); split; congruence. Qed.

Lemma basic_register_ok name idf s u info s' id :
  reg_ok idf s -> basic_register name idf s u info = Ok (s', id) ->
  idf info = None /\
  (u = true -> sv_bytes (name info) <> [] /\ forall p, In (Some p) s -> sv_bytes (name p) <> sv_bytes (name info)) /\
  nth_error s' id = Some (Some info) /\
  (forall j, j <> id -> nth_error s' j = nth_error s j) /\
  (nth_error s id = Some None \/ nth_error s id = None) /\
  (forall j, j < id -> exists p, nth_error s j = Some (Some p)).
Proof.
  unfold basic_register. intros Hok H. destruct (idf info) eqn:Hid; [discriminate|].
  split; auto.
  destruct (u && sv_empty (name info)) eqn:Hem; [discriminate|].
  assert (Hfree : forall free,
    match free with None => Ok (s ++ [Some info], length s) | Some i => Ok (set_nth i (Some info) s, i) end = Ok (s', id) ->
    free = scan_fwd s 0 ->
    nth_error s' id = Some (Some info) /\ (forall j, j <> id -> nth_error s' j = nth_error s j) /\
    (nth_error s id = Some None \/ nth_error s id = None) /\
    (forall j, j < id -> exists p, nth_error s j = Some (Some p))).
  { clear H. intros [i|] H Hs; injection H as <- <-; symmetry in Hs.
    - apply scan_fwd_some in Hs. rewrite Nat.sub_0_r in Hs. destruct Hs as (_ & H1 & H2).
      split; [apply nth_error_set_nth_same; eapply nth_error_lt; eauto|].
      split; [intros; apply nth_error_set_nth_other; auto|]. auto.
    - split; [rewrite nth_error_app2 by lia; now rewrite Nat.sub_diag|].
      split.
      + intros j Hj. destruct (Nat.lt_ge_cases j (length s)).
        * now rewrite nth_error_app1.
        * rewrite (proj2 (nth_error_None s j)) by lia. apply nth_error_None. rewrite app_length. simpl. lia.
      + split; [right; apply nth_error_None; lia|]. exact (scan_fwd_none s 0 Hs). }
  destruct u; simpl in *.
  - destruct (scan_rev_spec name idf (name info) s Hok None) as [(p & _ & _ & Hr)|(Hn & Hr)]; rewrite Hr in H; simpl in H; [discriminate|].
    split.
    + intros _. split; auto. intros He. apply sv_empty_spec in He. congruence.
    + apply (Hfree (scan_fwd s 0)); auto. destruct (scan_fwd s 0); auto.
  - split; [discriminate|]. apply (Hfree (scan_fwd s 0)); auto.
Qed.

Lemma basic_register_not_ub name idf s u info : reg_ok idf s -> ~ is_ub (basic_register name idf s u info).
Proof.
  unfold basic_register. intros Hok. destruct (idf info); simpl; auto.
  destruct (u && sv_empty (name info)); simpl; auto. destruct u; simpl.
  - destruct (scan_rev_spec name idf (name info) s Hok None) as [(p & _ & _ & ->)|(_ & ->)]; simpl; auto.
    destruct (scan_fwd s 0); simpl; auto.
  - destruct (scan_fwd s 0); simpl; auto.
Qed.

(** when exactly registration succeeds *)
Lemma basic_register_complete name idf s u info :
  reg_ok idf s -> idf info = None ->
  (u = true -> sv_bytes (name info) <> [] /\ forall p, In (Some p) s -> sv_bytes (name p) <> sv_bytes (name info)) ->
  basic_register name idf s u info =
    Ok (match scan_fwd s 0 with None => (s ++ [Some info], length s) | Some i => (set_nth i (Some info) s, i) end).
Proof.
  unfold basic_register. intros Hok -> Hu. destruct u; simpl.
  - destruct (Hu eq_refl) as [Hne Hall].
    destruct (sv_empty (name info)) eqn:Hem; [apply sv_empty_spec in Hem; congruence|].
    destruct (scan_rev_spec name idf (name info) s Hok None) as [(p & Hin & He & _)|(_ & ->)].
    { exfalso. eapply Hall; eauto. }
    simpl. destruct (scan_fwd s 0); auto.
  - destruct (scan_fwd s 0); auto.
Qed.

Lemma basic_unregister_ok idf s info s' :
  basic_unregister idf s info = Ok s' ->
  exists i, idf info = Some i /\ nth_error s i = Some (Some info) /\ s' = set_nth i None s.
Proof.
  unfold basic_unregister. destruct (idf info) as [i|]; [|discriminate].
  destruct (nth_error s i) as [[p|]|] eqn:Hn; try discriminate.
  destruct (Nat.eqb_spec p info); [|discriminate]. intros [= <-]. subst. eauto.
Qed.
Lemma basic_unregister_throw idf s info e :
  basic_unregister idf s info = Throw e -> forall i, idf info = Some i -> nth_error s i <> Some (Some info).
Proof.
  unfold basic_unregister. intros H i Hi Hn. rewrite Hi, Hn, Nat.eqb_refl in H. discriminate.
Qed.
Lemma basic_unregister_not_ub idf s info : ~ is_ub (basic_unregister idf s info).
Proof.
  unfold basic_unregister. destruct (idf info); simpl; auto.
  destruct (nth_error s n) as [[p|]|]; simpl; auto. destruct (p =? info); simpl; auto.
Qed.
Lemma basic_unregister_complete idf s info i :
  idf info = Some i -> nth_error s i = Some (Some info) -> basic_unregister idf s info = Ok (set_nth i None s).
Proof. unfold basic_unregister. intros -> ->. now rewrite Nat.eqb_refl. Qed.

Lemma get_by_id_spec i s p : get_by_id (Some i) s = Some p <-> nth_error s i = Some (Some p).
Proof. simpl. destruct (nth_error s i) as [x|]; split; congruence. Qed.

Lemma get_by_name_some name nm s p : get_by_name name nm s = Some p -> In (Some p) s /\ sv_bytes (name p) = nm.
Proof.
  induction s as [|[q|] s IH]; simpl; try discriminate.
  - destruct (bytes_eqb_spec (sv_bytes (name q)) nm).
    + intros [= <-]. auto.
    + intros H. apply IH in H. tauto.
  - intros H. apply IH in H. tauto.
Qed.
Lemma get_by_name_none name nm s : get_by_name name nm s = None -> forall p, In (Some p) s -> sv_bytes (name p) <> nm.
Proof.
  induction s as [|[q|] s IH]; simpl; try tauto.
  - destruct (bytes_eqb_spec (sv_bytes (name q)) nm); [discriminate|].
    intros H p [[= <-]|Hp]; auto.
  - intros H p [[=]|Hp]; auto.
Qed.

Lemma in_nth_error_some {A} (x : A) l : In x l <-> exists i, nth_error l i = Some x.
Proof. split; [apply In_nth_error|]. intros [i Hi]. eapply nth_error_In; eauto. Qed.
