From Coq Require Import List Arith ZArith NArith Lia Bool Permutation Sorted.
From Verif Require Import Base Sv Info TypeBuild BaseLemmas.
Import ListNotations.

(** ** Slices *)
Lemma nth_error_firstn {A} n (l : list A) i : nth_error (firstn n l) i = if i <? n then nth_error l i else None.
Proof.
  revert l i; induction n; intros [|x l] [|i]; simpl; auto.
  - destruct (S i <? S n); auto.
  - rewrite IHn. reflexivity.
Qed.
Lemma nth_error_skipn {A} n (l : list A) i : nth_error (skipn n l) i = nth_error l (n + i).
Proof. revert l; induction n; intros [|x l]; simpl; auto. now destruct i. Qed.

Lemma nth_error_slice {A} b e (l : list A) i :
  nth_error (slice b e l) i = if i <? e - b then nth_error l (b + i) else None.
Proof. unfold slice. now rewrite nth_error_firstn, nth_error_skipn. Qed.

Lemma nth_error_ext {A} (l1 l2 : list A) : (forall i, nth_error l1 i = nth_error l2 i) -> l1 = l2.
Proof.
  revert l2; induction l1 as [|x l1 IH]; intros [|y l2] H; auto.
  - specialize (H 0); discriminate.
  - specialize (H 0); discriminate.
  - assert (H0 := H 0). injection H0 as <-. f_equal. apply IH. intros i. apply (H (S i)).
Qed.

Lemma length_slice {A} b e (l : list A) : e <= length l -> length (slice b e l) = e - b.
Proof. intros H. unfold slice. rewrite firstn_length, skipn_length. lia. Qed.

Lemma slice_snoc {A} b e (l : list A) x :
  b <= e -> e < length l -> slice b (S e) (set_nth e x l) = slice b e l ++ [x].
Proof.
  intros Hb He. apply nth_error_ext. intros i. rewrite nth_error_slice.
  destruct (Nat.ltb_spec i (S e - b)).
  - destruct (Nat.eq_dec (b + i) e) as [<-|Hne].
    + rewrite nth_error_set_nth_same by lia.
      rewrite nth_error_app2 by (rewrite length_slice; lia).
      rewrite length_slice by lia. replace (i - (b + i - b)) with 0 by lia. reflexivity.
    + rewrite nth_error_set_nth_other by lia. rewrite nth_error_app1 by (rewrite length_slice; lia).
      rewrite nth_error_slice. destruct (Nat.ltb_spec i (e - b)); auto; lia.
  - symmetry. apply nth_error_None. rewrite app_length, length_slice by lia. simpl. lia.
Qed.
Lemma slice_other {A} b e (l : list A) p x :
  p < b \/ e <= p -> slice b e (set_nth p x l) = slice b e l.
Proof.
  intros H. apply nth_error_ext. intros i. rewrite !nth_error_slice.
  destruct (Nat.ltb_spec i (e - b)); auto. apply nth_error_set_nth_other. lia.
Qed.
Lemma slice_empty {A} b (l : list A) : slice b b l = [].
Proof. unfold slice. now rewrite Nat.sub_diag. Qed.

Lemma all_some_map {A} (l : list A) : all_some (map Some l) = Some l.
Proof. induction l; simpl; auto. now rewrite IHl. Qed.
Lemma all_some_spec {A} (l : list (option A)) l' : all_some l = Some l' -> l = map Some l'.
Proof.
  revert l'; induction l as [|[x|] l IH]; simpl; intros l' H; try discriminate.
  - now injection H as <-.
  - destruct (all_some l) as [r|]; [|discriminate]. injection H as <-. simpl. f_equal. auto.
Qed.

(** write a whole range *)
Definition put {A} b e (x : list A) (l : list A) : list A := firstn b l ++ x ++ skipn e l.
Lemma nth_error_put {A} b e (x l : list A) i :
  length x = e - b -> b <= e -> e <= length l ->
  nth_error (put b e x l) i = if (b <=? i) && (i <? e) then nth_error x (i - b) else nth_error l i.
Proof.
  intros Hx Hb He. unfold put.
  assert (Hf : length (firstn b l) = b) by (rewrite firstn_length; lia).
  destruct (Nat.leb_spec b i); simpl.
  - rewrite nth_error_app2 by lia. rewrite Hf. destruct (Nat.ltb_spec i e).
    + rewrite nth_error_app1 by lia. auto.
    + rewrite nth_error_app2 by lia. rewrite nth_error_skipn. f_equal. lia.
  - rewrite nth_error_app1 by lia. rewrite nth_error_firstn. destruct (Nat.ltb_spec i b); auto; lia.
Qed.
Lemma length_put {A} b e (x l : list A) : length x = e - b -> b <= e -> e <= length l -> length (put b e x l) = length l.
Proof. intros. unfold put. rewrite !app_length, firstn_length, skipn_length. lia. Qed.
Lemma slice_put_same {A} b e (x l : list A) : length x = e - b -> b <= e -> e <= length l -> slice b e (put b e x l) = x.
Proof.
  intros Hx Hb He. apply nth_error_ext. intros i. rewrite nth_error_slice. destruct (Nat.ltb_spec i (e - b)).
  - rewrite nth_error_put by auto.
    destruct (Nat.leb_spec b (b + i)); [|lia]. destruct (Nat.ltb_spec (b + i) e); [|lia]. simpl. f_equal. lia.
  - symmetry. apply nth_error_None. lia.
Qed.
Lemma slice_put_other {A} b e b' e' (x l : list A) :
  length x = e - b -> b <= e -> e <= length l -> e' <= b \/ e <= b' -> slice b' e' (put b e x l) = slice b' e' l.
Proof.
  intros Hx Hb He Hd. apply nth_error_ext. intros i. rewrite !nth_error_slice. destruct (Nat.ltb_spec i (e' - b')); auto.
  rewrite nth_error_put by auto.
  destruct (Nat.leb_spec b (b' + i)); simpl; auto. destruct (Nat.ltb_spec (b' + i) e); auto. lia.
Qed.

(** ** The payload order *)
Lemma payload_less_irrefl a : payload_less a a = false.
Proof. unfold payload_less. rewrite !Z.eqb_refl. simpl. apply Nat.ltb_irrefl. Qed.
Ltac plsolve :=
  unfold payload_less;
  repeat match goal with
  | |- context [Z.eqb ?a ?b] => destruct (Z.eqb_spec a b); simpl
  | |- context [Z.ltb ?a ?b] => destruct (Z.ltb_spec a b); simpl
  | |- context [Nat.ltb ?a ?b] => destruct (Nat.ltb_spec a b); simpl
  end; try congruence; try lia.
Lemma payload_less_asym a b : payload_less a b = true -> payload_less b a = false.
Proof. plsolve. Qed.
Lemma payload_less_ntrans a b c : payload_less b a = false -> payload_less c b = false -> payload_less c a = false.
Proof. plsolve. Qed.
Lemma sort_payloads_sorted l : StronglySorted (le_by payload_less) (sort_by payload_less l).
Proof.
  apply sort_by_sorted with (P := fun _ => True).
  - intros; now apply payload_less_asym.
  - intros x y z _ _ _. apply payload_less_ntrans.
  - apply Forall_forall. auto.
Qed.

Section Build.
Variable E : env.
Variable fid : fptr -> option nat.
Variable mid : mptr -> option nat.

Notation all_features := (all_features E).
Notation ftable_size := (ftable_size fid).
Notation count_pls := (count_pls fid).
Notation fill_pls := (fill_pls fid).

(** ** First pass *)
Definition all_valid (fs : list (nat * ffm)) : Prop := forall i f, In (i, f) fs -> fid (ff_info f) <> None.

Definition size_step (s : nat) (x : nat * ffm) : nat :=
  let size_with := match fid (ff_info (snd x)) with Some i => S i | None => 0 end in
  if s <? size_with then size_with else s.
Lemma ftable_size_ge_acc (fs : list (nat * ffm)) : forall s, s <= fold_left size_step fs s.
Proof.
  induction fs as [|[i f] fs IH]; simpl; intros s; auto.
  etransitivity; [|apply IH]. unfold size_step; simpl. destruct (fid (ff_info f)) as [n|]; simpl.
  - destruct (Nat.ltb_spec s (S n)); lia.
  - auto.
Qed.
Lemma ftable_size_bound_acc fs i f k : forall s, In (i, f) fs -> fid (ff_info f) = Some k -> k < fold_left size_step fs s.
Proof.
  induction fs as [|[j g] fs IH]; simpl; intros s Hin Hk; [tauto|]. destruct Hin as [Heq|Hin].
  - injection Heq as -> ->. eapply Nat.lt_le_trans; [|apply ftable_size_ge_acc].
    unfold size_step; simpl. rewrite Hk. destruct (Nat.ltb_spec s (S k)); lia.
  - now apply IH.
Qed.
Lemma ftable_size_bound fs i f k : In (i, f) fs -> fid (ff_info f) = Some k -> k < ftable_size fs.
Proof. exact (ftable_size_bound_acc fs i f k 0). Qed.

Definition is_k (k : nat) (x : nat * ffm) : bool := opt_eqb (fid (ff_info (snd x))) (Some k).
(** the listings of the feature with id k *)
Definition L (k : nat) (fs : list (nat * ffm)) : list (nat * ffm) := filter (is_k k) fs.

Lemma L_app k a b : L k (a ++ b) = L k a ++ L k b.
Proof. apply filter_app. Qed.

(** ** Second pass *)
Lemma count_pls_ok fs : forall counts, all_valid fs -> (forall i f k, In (i, f) fs -> fid (ff_info f) = Some k -> k < length counts) ->
  exists c', count_pls fs counts = Ok c' /\ length c' = length counts /\
  forall k c, nth_error counts k = Some c -> nth_error c' k = Some (c + length (L k fs)).
Proof.
  induction fs as [|[i f] fs IH]; simpl; intros counts Hv Hb.
  - exists counts. repeat split; auto. intros k c H. now rewrite Nat.add_0_r.
  - destruct (fid (ff_info f)) as [k|] eqn:Hk; [|exfalso; eapply Hv; [now left|eauto]].
    assert (Hlt : k < length counts) by (eapply Hb; [now left|eauto]).
    destruct (nth_error counts k) as [c|] eqn:Hc; [|apply nth_error_None in Hc; lia].
    destruct (IH (set_nth k (S c) counts)) as (c' & H1 & H2 & H3).
    + intros j g Hin. apply (Hv j g). now right.
    + intros j g q Hin Hq. rewrite length_set_nth. eapply Hb; [right; eauto|eauto].
    + exists c'. split; auto. rewrite length_set_nth in H2. split; auto.
      intros q x Hx. unfold is_k at 1. simpl. rewrite Hk.
      destruct (opt_eqb_spec (Some k) (Some q)) as [[= ->]|Hne].
      * rewrite Hc in Hx. injection Hx as <-. simpl. rewrite <- Nat.add_succ_comm.
        apply H3. now apply nth_error_set_nth_same.
      * apply H3. rewrite nth_error_set_nth_other; congruence.
Qed.

(** ** Third pass *)
Definition mkpl (x : nat * ffm) : fpayload := {| fp_mixin := fst x; fp_payload := ff_payload (snd x); fp_data := snd x |}.

(** sum of the counts of the entries already attached *)
Fixpoint used (es : list (option fentry)) (cs : list nat) : nat :=
  match es, cs with
  | e :: es', c :: cs' => (match e with Some _ => c | None => 0 end) + used es' cs'
  | _, _ => 0
  end.
Fixpoint sum (l : list nat) : nat := match l with [] => 0 | x :: r => x + sum r end.
Lemma used_le es cs : used es cs <= sum cs.
Proof. revert cs; induction es as [|[e|] es IH]; intros [|c cs]; simpl; try lia; specialize (IH cs); lia. Qed.
Lemma used_set es cs k e c : nth_error es k = Some None -> nth_error cs k = Some c -> used (set_nth k (Some e) es) cs = used es cs + c.
Proof.
  revert cs k; induction es as [|x es IH]; intros [|y cs] [|k]; simpl; intros H1 H2; try discriminate.
  - injection H1 as ->. injection H2 as ->. lia.
  - rewrite (IH cs k); auto. lia.
Qed.
Lemma used_set_some es cs k e e' : nth_error es k = Some (Some e') -> used (set_nth k (Some e) es) cs = used es cs.
Proof.
  revert cs k; induction es as [|x es IH]; intros [|y cs] [|k]; simpl; intros H1; try discriminate; auto.
  injection H1 as ->. auto.
Qed.
Lemma used_repeat n cs : used (repeat None n) cs = 0.
Proof. revert cs; induction n; intros [|c cs]; simpl; auto. Qed.

Lemma sum_bump l k : k < length l -> exists c, nth_error l k = Some c /\ sum (set_nth k (S c) l) = S (sum l).
Proof.
  revert k; induction l as [|x l IH]; intros [|k] H; simpl in *; try lia.
  - exists x. split; auto.
  - destruct (IH k) as (c & H1 & H2); [lia|]. exists c. split; auto. lia.
Qed.
Lemma count_pls_sum fs : forall counts c', count_pls fs counts = Ok c' -> sum c' = sum counts + length fs.
Proof.
  induction fs as [|[i f] fs IH]; simpl; intros counts c' H.
  - injection H as <-. lia.
  - destruct (fid (ff_info f)) as [k|]; [|discriminate].
    destruct (nth_error counts k) as [c|] eqn:Hc; [|discriminate].
    apply IH in H. destruct (sum_bump counts k) as (c0 & H1 & H2); [eapply nth_error_lt; eauto|].
    rewrite Hc in H1. injection H1 as <-. lia.
Qed.
Lemma sum_repeat n : sum (repeat 0 n) = 0.
Proof. induction n; simpl; auto. Qed.

Record fill_inv (counts : list nat) (total : nat) (done : list (nat * ffm)) (t : ftable) (next : nat) : Prop := {
  fi_len : length (ft_entries t) = length counts;
  fi_pls : length (ft_pls t) = total;
  fi_next : next = used (ft_entries t) counts;
  fi_none : forall k, nth_error (ft_entries t) k = Some None -> L k done = [];
  fi_some : forall k e c, nth_error (ft_entries t) k = Some (Some e) -> nth_error counts k = Some c ->
    L k done <> [] /\ fe_back e = fe_begin e /\ fe_end e = fe_begin e + length (L k done) /\
    fe_begin e + c <= next /\
    slice (fe_begin e) (fe_end e) (ft_pls t) = map Some (map mkpl (L k done));
  fi_disj : forall k k' e e' c c', k <> k' ->
    nth_error (ft_entries t) k = Some (Some e) -> nth_error (ft_entries t) k' = Some (Some e') ->
    nth_error counts k = Some c -> nth_error counts k' = Some c' ->
    fe_begin e + c <= fe_begin e' \/ fe_begin e' + c' <= fe_begin e
}.

Lemma fill_pls_ok counts fs total : sum counts <= total ->
  (forall k c, nth_error counts k = Some c -> c = length (L k fs)) ->
  (forall i f, In (i, f) fs -> exists k, fid (ff_info f) = Some k /\ k < length counts) ->
  forall r done t next, fs = done ++ r -> fill_inv counts total done t next ->
  exists t' next', fill_pls counts r t next = Ok t' /\ fill_inv counts total fs t' next'.
Proof.
  intros Hsum Hcounts Hvalid.
  induction r as [|[i f] r IH]; intros done t next Hfs Hinv.
  - rewrite app_nil_r in Hfs. subst. simpl. eauto.
  - simpl. destruct (Hvalid i f) as (k & Hk & Hklt).
    { subst. apply in_or_app. simpl. auto. }
    rewrite Hk. destruct Hinv as [Hlen Hpls Hnext Hnone Hsome Hdisj].
    destruct (nth_error (ft_entries t) k) as [oe|] eqn:He; [|apply nth_error_None in He; lia].
    destruct (nth_error counts k) as [num|] eqn:Hnum; [|apply nth_error_None in Hnum; lia].
    assert (Hkf : L k [(i, f)] = [(i, f)]).
    { simpl. unfold is_k; simpl. rewrite Hk. destruct (opt_eqb_spec (Some k) (Some k)); congruence. }
    assert (Hkf' : forall q, q <> k -> L q [(i, f)] = []).
    { intros q Hq. simpl. unfold is_k; simpl. rewrite Hk. destruct (opt_eqb_spec (Some k) (Some q)); congruence. }
    assert (Hn := Hcounts _ _ Hnum).
    assert (Hsplit : L k fs = L k done ++ (i, f) :: L k r).
    { rewrite Hfs, L_app. change ((i, f) :: r) with ([(i, f)] ++ r). rewrite L_app, Hkf. reflexivity. }
    assert (Hnle : length (L k done) < num).
    { rewrite Hn, Hsplit, app_length. simpl. lia. }
    assert (num =? 0 = false) as -> by (apply Nat.eqb_neq; lia).
    assert (Hunext := used_le (ft_entries t) counts). rewrite <- Hnext in Hunext.
    set (pl := {| fp_mixin := i; fp_payload := ff_payload f; fp_data := f |}).
    destruct oe as [e|].
    + (* existing entry *)
      destruct (Hsome _ _ _ He Hnum) as (Hd1 & Hd2 & Hd3 & Hd4 & Hd5).
      destruct (Nat.ltb_spec (fe_end e) (length (ft_pls t))) as [Hlt|Hge]; [|lia].
      apply IH with (done := done ++ [(i, f)]); [now rewrite <- app_assoc|].
      constructor; simpl.
      * now rewrite length_set_nth.
      * now rewrite length_set_nth.
      * rewrite used_set_some with (e' := e); auto.
      * intros q. destruct (Nat.eq_dec k q) as [<-|Hq].
        -- rewrite nth_error_set_nth_same by lia. discriminate.
        -- rewrite nth_error_set_nth_other by auto. intros Hx. rewrite L_app, Hkf' by auto. now rewrite (Hnone q).
      * intros q e2 c2. destruct (Nat.eq_dec k q) as [<-|Hq].
        -- rewrite nth_error_set_nth_same by lia. intros [= <-]. rewrite Hnum. intros [= <-]. simpl.
           rewrite L_app, Hkf. split; [destruct (L k done); discriminate|]. split; auto. split; [rewrite app_length; simpl; lia|].
           split; auto. rewrite slice_snoc by lia. rewrite Hd5, !map_app. reflexivity.
        -- rewrite nth_error_set_nth_other by auto. intros Hx Hc. rewrite L_app, Hkf', app_nil_r by auto.
           destruct (Hsome _ _ _ Hx Hc) as (A1 & A2 & A3 & A4 & A5). repeat split; auto.
           rewrite slice_other; auto. destruct (Hdisj k q e e2 num c2 Hq He Hx Hnum Hc); try lia.
           right. assert (length (L q done) <= c2); [|lia].
           rewrite (Hcounts _ _ Hc), Hfs, L_app, app_length. lia.
      * intros q q' e1 e2 c1 c2 Hqq. rewrite !nth_error_set_nth.
        destruct (Nat.eqb_spec k q) as [<-|]; destruct (Nat.eqb_spec k q') as [<-|]; simpl; try congruence.
        -- destruct (Nat.ltb_spec k (length (ft_entries t))); [|lia]. intros [= <-] H2 H3 H4. simpl. eapply (Hdisj k q'); eauto.
        -- destruct (Nat.ltb_spec k (length (ft_entries t))); [|lia]. intros H1 [= <-] H3 H4. simpl. eapply (Hdisj q k); eauto.
        -- intros. eapply (Hdisj q q'); eauto.
    + (* new entry *)
      assert (Hu := used_set (ft_entries t) counts k {| fe_begin := next; fe_back := next; fe_end := S next |} num He Hnum).
      assert (Hu2 := used_le (set_nth k (Some {| fe_begin := next; fe_back := next; fe_end := S next |}) (ft_entries t)) counts).
      simpl. destruct (Nat.ltb_spec next (length (ft_pls t))) as [Hlt|Hge]; [|lia].
      assert (Hd0 := Hnone _ He).
      apply IH with (done := done ++ [(i, f)]); [now rewrite <- app_assoc|].
      constructor; simpl.
      * now rewrite length_set_nth.
      * now rewrite length_set_nth.
      * rewrite Hu. lia.
      * intros q. destruct (Nat.eq_dec k q) as [<-|Hq].
        -- rewrite nth_error_set_nth_same by lia. discriminate.
        -- rewrite nth_error_set_nth_other by auto. intros Hx. rewrite L_app, Hkf' by auto. now rewrite (Hnone q).
      * intros q e2 c2. destruct (Nat.eq_dec k q) as [<-|Hq].
        -- rewrite nth_error_set_nth_same by lia. intros [= <-]. rewrite Hnum. intros [= <-]. simpl.
           rewrite L_app, Hkf, Hd0. simpl. split; [discriminate|]. split; auto. split; [lia|].
           split; auto. rewrite slice_snoc by lia. rewrite slice_empty. reflexivity.
        -- rewrite nth_error_set_nth_other by auto. intros Hx Hc. rewrite L_app, Hkf', app_nil_r by auto.
           destruct (Hsome _ _ _ Hx Hc) as (A1 & A2 & A3 & A4 & A5). repeat split; auto; try lia.
           rewrite slice_other; auto. right. assert (length (L q done) <= c2); [|lia].
           rewrite (Hcounts _ _ Hc), Hfs, L_app, app_length. lia.
      * intros q q' e1 e2 c1 c2 Hqq. rewrite !nth_error_set_nth.
        destruct (Nat.eqb_spec k q) as [<-|]; destruct (Nat.eqb_spec k q') as [<-|]; simpl; try congruence.
        -- destruct (Nat.ltb_spec k (length (ft_entries t))); [|lia]. intros [= <-] H2 H3 H4. simpl.
           right. destruct (Hsome _ _ _ H2 H4) as (_ & _ & _ & A4 & _). auto.
        -- destruct (Nat.ltb_spec k (length (ft_entries t))); [|lia]. intros H1 [= <-] H3 H4. simpl.
           left. destruct (Hsome _ _ _ H1 H3) as (_ & _ & _ & A4 & _). auto.
        -- intros. eapply (Hdisj q q'); eauto.
Qed.

(** ** Fourth pass *)
Definition in_range (e : fentry) (n : nat) : Prop := fe_begin e < fe_end e /\ fe_end e <= n.
Definition disj (e e' : fentry) : Prop := fe_end e <= fe_begin e' \/ fe_end e' <= fe_begin e.

(** the clash test the code makes on a sorted range *)
Definition clash_test (sorted : list fpayload) : bool :=
  match sorted with
  | [] => false
  | top :: _ => negb (f_allow_clashes (e_feature E (ff_info (fp_data top)))) && has_clash sorted
  end.
Definition back_of (sorted : list fpayload) : nat :=
  match sorted with [] => 0 | top :: rest => top_bid_run (ff_bid (fp_data top)) rest end.

Lemma finish_entry_ok e pls range :
  in_range e (length pls) -> slice (fe_begin e) (fe_end e) pls = map Some range ->
  finish_entry E e pls =
    if clash_test (sort_by payload_less range) then Throw EFeatureClash
    else Ok ({| fe_begin := fe_begin e; fe_back := fe_begin e + back_of (sort_by payload_less range); fe_end := fe_end e |},
             put (fe_begin e) (fe_end e) (map Some (sort_by payload_less range)) pls).
Proof.
  intros [Hr1 Hr2] Hs. unfold finish_entry. rewrite Hs, all_some_map.
  assert (Hl : length (sort_by payload_less range) = fe_end e - fe_begin e).
  { rewrite (Permutation_length (sort_by_perm payload_less range)).
    rewrite <- (map_length Some), <- Hs, length_slice; lia. }
  destruct (sort_by payload_less range) as [|top rest] eqn:Hsort; [simpl in Hl; lia|].
  simpl clash_test. destruct (negb _ && _); reflexivity.
Qed.

Lemma finish_entries_spec : forall todo pls ranges,
  length ranges = length todo ->
  (forall k e rg, nth_error todo k = Some (Some e) -> nth_error ranges k = Some rg ->
     in_range e (length pls) /\ slice (fe_begin e) (fe_end e) pls = map Some rg) ->
  (forall k k' e e', k <> k' -> nth_error todo k = Some (Some e) -> nth_error todo k' = Some (Some e') -> disj e e') ->
  (exists k e rg, nth_error todo k = Some (Some e) /\ nth_error ranges k = Some rg /\
     clash_test (sort_by payload_less rg) = true /\ finish_entries E todo pls = Throw EFeatureClash) \/
  ((forall k e rg, nth_error todo k = Some (Some e) -> nth_error ranges k = Some rg -> clash_test (sort_by payload_less rg) = false) /\
   exists t, finish_entries E todo pls = Ok t /\ length (ft_entries t) = length todo /\ length (ft_pls t) = length pls /\
   (forall k, nth_error todo k = Some None -> nth_error (ft_entries t) k = Some None) /\
   (forall k e rg, nth_error todo k = Some (Some e) -> nth_error ranges k = Some rg ->
      nth_error (ft_entries t) k = Some (Some {| fe_begin := fe_begin e; fe_back := fe_begin e + back_of (sort_by payload_less rg); fe_end := fe_end e |}) /\
      slice (fe_begin e) (fe_end e) (ft_pls t) = map Some (sort_by payload_less rg)) /\
   (forall b n, (forall k e, nth_error todo k = Some (Some e) -> fe_end e <= b \/ n <= fe_begin e) ->
      slice b n (ft_pls t) = slice b n pls)).
Proof.
  induction todo as [|oe todo IH]; intros pls ranges Hlen Hrg Hdisj.
  - right. split; [intros [|]; discriminate|]. exists {| ft_entries := []; ft_pls := pls |}. simpl.
    split; [reflexivity|]. split; [reflexivity|]. split; [reflexivity|]. split; [intros [|]; discriminate|]. split; [intros [|]; discriminate|]. reflexivity.
  - destruct ranges as [|rg ranges]; [discriminate|]. simpl in Hlen. injection Hlen as Hlen.
    assert (Hdisj' : forall k k' e e', k <> k' -> nth_error todo k = Some (Some e) -> nth_error todo k' = Some (Some e') -> disj e e').
    { intros k k' e e' Hk H1 H2. apply (Hdisj (S k) (S k')); auto. }
    destruct oe as [e|]; simpl finish_entries.
    + destruct (Hrg 0 e rg eq_refl eq_refl) as [Hin Hsl].
      rewrite (finish_entry_ok _ _ _ Hin Hsl).
      destruct (clash_test (sort_by payload_less rg)) eqn:Hct.
      { left. exists 0, e, rg. simpl. auto. }
      simpl bind. set (srt := sort_by payload_less rg). set (pls' := put (fe_begin e) (fe_end e) (map Some srt) pls).
      assert (Hls : length (map Some srt) = fe_end e - fe_begin e).
      { unfold srt. rewrite map_length, (Permutation_length (sort_by_perm payload_less rg)).
        destruct Hin. rewrite <- (map_length Some), <- Hsl, length_slice; lia. }
      destruct Hin as [Hin1 Hin2].
      assert (Hlp : length pls' = length pls) by (apply length_put; lia).
      destruct (IH pls' ranges Hlen) as [(k & e' & rg' & H1 & H2 & H3 & H4)|(Hno & t & Ht & Hl1 & Hl2 & Hnone & Hsome & Hout)]; auto.
      { intros k e' rg' H1 H2. destruct (Hrg (S k) e' rg' H1 H2) as [Hin' Hsl']. rewrite Hlp. split; auto.
        unfold pls'. rewrite slice_put_other; auto; try lia.
        destruct (Hdisj 0 (S k) e e'); auto. }
      * left. exists (S k), e', rg'. simpl. rewrite H4. auto.
      * right. split.
        { intros [|k] e' rg'; simpl; [intros [= <-] [= <-]; auto|apply Hno]. }
        rewrite Ht. simpl. eexists. split; [reflexivity|]. simpl. split; [lia|]. split; [lia|]. split; [|split].
        -- intros [|k]; simpl; [discriminate|apply Hnone].
        -- intros [|k] e' rg'; simpl; [|apply Hsome]. intros [= <-] [= <-]. split; auto.
           rewrite Hout. { apply slice_put_same; auto; lia. }
           intros k e' He'. destruct (Hdisj 0 (S k) e e'); auto.
        -- intros b n Hb. rewrite Hout; [|intros k e' He'; apply (Hb (S k)); auto].
           apply slice_put_other; try lia. destruct (Hb 0 e eq_refl); auto.
    + destruct (IH pls ranges Hlen) as [(k & e' & rg' & H1 & H2 & H3 & H4)|(Hno & t & Ht & Hl1 & Hl2 & Hnone & Hsome & Hout)]; auto.
      { intros k e' rg' H1 H2. apply (Hrg (S k)); auto. }
      * left. exists (S k), e', rg'. simpl. rewrite H4. auto.
      * right. split.
        { intros [|k] e' rg'; simpl; [discriminate|apply Hno]. }
        rewrite Ht. simpl. eexists. split; [reflexivity|]. simpl. split; [lia|]. split; [lia|]. split; [|split].
        -- intros [|k]; simpl; auto.
        -- intros [|k] e' rg'; simpl; [discriminate|apply Hsome].
        -- intros b n Hb. apply Hout. intros k e' He'. apply (Hb (S k)); auto.
Qed.

(** ** The whole ftable *)
(** what an ftable says about the feature with id k *)
Definition ft_at (ft : ftable) (k : nat) : option fentry :=
  match nth_error (ft_entries ft) k with Some x => x | None => None end.

Definition sorted_pls (k : nat) (mixins : list mptr) : list fpayload :=
  sort_by payload_less (map mkpl (L k (all_features mixins))).

Definition ft_ok (mixins : list mptr) (ft : ftable) : Prop :=
  forall k,
    match ft_at ft k with
    | None => L k (all_features mixins) = []
    | Some e =>
      L k (all_features mixins) <> [] /\
      fe_begin e < fe_end e /\ fe_end e <= length (ft_pls ft) /\
      fe_back e = fe_begin e + back_of (sorted_pls k mixins) /\
      slice (fe_begin e) (fe_end e) (ft_pls ft) = map Some (sorted_pls k mixins)
    end.

Lemma L_nil_beyond mixins k : ftable_size (all_features mixins) <= k -> L k (all_features mixins) = [].
Proof.
  intros H. destruct (L k (all_features mixins)) as [|[i f] l] eqn:HL; auto. exfalso.
  assert (Hin : In (i, f) (L k (all_features mixins))) by (rewrite HL; now left).
  apply filter_In in Hin. destruct Hin as [Hin Hk]. unfold is_k in Hk. simpl in Hk.
  destruct (opt_eqb_spec (fid (ff_info f)) (Some k)) as [Hf|]; [|discriminate].
  assert (Hb := ftable_size_bound _ _ _ _ Hin Hf). lia.
Qed.

Theorem build_ftable_spec mixins :
  all_valid (all_features mixins) ->
  exists counts, ftable_counts E fid mixins = Ok counts /\
  ((exists k, clash_test (sorted_pls k mixins) = true /\ build_ftable E fid mixins counts = Throw EFeatureClash) \/
   ((forall k, clash_test (sorted_pls k mixins) = false) /\
    exists ft, build_ftable E fid mixins counts = Ok ft /\ ft_ok mixins ft)).
Proof.
  intros Hv. unfold ftable_counts, build_ftable, sorted_pls.
  set (fs := all_features mixins) in *. set (size := ftable_size fs).
  destruct (count_pls_ok fs (repeat 0 size) Hv) as (counts & Hc1 & Hc2 & Hc3).
  { intros i f k Hin Hk. rewrite repeat_length. eapply ftable_size_bound; eauto. }
  rewrite repeat_length in Hc2. exists counts. split; auto.
  assert (Hcounts : forall k c, nth_error counts k = Some c -> c = length (L k fs)).
  { intros k c H. assert (Hk : k < size) by (rewrite <- Hc2; eapply nth_error_lt; eauto).
    assert (H0 : nth_error (repeat 0 size) k = Some 0) by (rewrite nth_error_repeat; auto).
    apply Hc3 in H0. simpl in H0. congruence. }
  assert (Hsum : sum counts <= length fs).
  { apply count_pls_sum in Hc1. rewrite sum_repeat in Hc1. lia. }
  destruct (fill_pls_ok counts fs (length fs) Hsum Hcounts) with (r := fs) (done := @nil (nat * ffm))
    (t := {| ft_entries := repeat None (length counts); ft_pls := repeat (@None fpayload) (length fs) |}) (next := 0)
    as (t & next & Ht & Hinv); auto.
  { intros i f Hin. assert (Hf := Hv i f Hin). destruct (fid (ff_info f)) as [k|] eqn:Hk; [|congruence].
    exists k. split; auto. rewrite Hc2. eapply ftable_size_bound; eauto. }
  { constructor; simpl.
    - now rewrite repeat_length.
    - now rewrite repeat_length.
    - now rewrite used_repeat.
    - auto.
    - intros k e c Hk. assert (Hlt := nth_error_lt _ _ _ Hk). rewrite repeat_length in Hlt. rewrite nth_error_repeat in Hk by auto. discriminate.
    - intros k k' e e' c c' _ Hk. assert (Hlt := nth_error_lt _ _ _ Hk). rewrite repeat_length in Hlt. rewrite nth_error_repeat in Hk by auto. discriminate. }
  rewrite Ht. simpl bind. destruct Hinv as [Hlen Hpls Hnext Hnone Hsome Hdisj].
  set (ranges := map (fun k => map mkpl (L k fs)) (seq 0 (length (ft_entries t)))).
  assert (Hrn : forall k, k < length (ft_entries t) -> nth_error ranges k = Some (map mkpl (L k fs))).
  { intros k Hk. unfold ranges. rewrite nth_error_map.
    rewrite (nth_error_nth' _ 0) by now rewrite seq_length. rewrite seq_nth by auto. reflexivity. }
  destruct (finish_entries_spec (ft_entries t) (ft_pls t) ranges) as [(k & e & rg & H1 & H2 & H3 & H4)|(Hno & ft & Hft & Hl1 & Hl2 & Hn & Hs & _)].
  { unfold ranges. now rewrite map_length, seq_length. }
  { intros k e rg Hk Hr. assert (Hlt := nth_error_lt _ _ _ Hk). rewrite (Hrn _ Hlt) in Hr. injection Hr as <-.
    destruct (nth_error counts k) as [c|] eqn:Hc; [|apply nth_error_None in Hc; lia].
    destruct (Hsome _ _ _ Hk Hc) as (A1 & A2 & A3 & A4 & A5). split; auto.
    assert (Hu := used_le (ft_entries t) counts). assert (Hcc := Hcounts _ _ Hc).
    split; destruct (L k fs); simpl in *; try congruence; try lia. }
  { intros k k' e e' Hk H1 H2. assert (Hlt := nth_error_lt _ _ _ H1). assert (Hlt' := nth_error_lt _ _ _ H2).
    destruct (nth_error counts k) as [c|] eqn:Hc; [|apply nth_error_None in Hc; lia].
    destruct (nth_error counts k') as [c'|] eqn:Hc'; [|apply nth_error_None in Hc'; lia].
    destruct (Hsome _ _ _ H1 Hc) as (_ & _ & A3 & _ & _). destruct (Hsome _ _ _ H2 Hc') as (_ & _ & B3 & _ & _).
    rewrite <- (Hcounts _ _ Hc) in A3. rewrite <- (Hcounts _ _ Hc') in B3.
    unfold disj. destruct (Hdisj k k' e e' c c'); auto; lia. }
  - left. exists k. split; auto. assert (Hlt := nth_error_lt _ _ _ H1). rewrite (Hrn _ Hlt) in H2. congruence.
  - right. split.
    + intros k. destruct (Nat.lt_ge_cases k (length (ft_entries t))) as [Hlt|Hge].
      * destruct (nth_error (ft_entries t) k) as [[e|]|] eqn:He.
        -- eapply Hno; eauto.
        -- rewrite (Hnone _ He). reflexivity.
        -- apply nth_error_None in He. lia.
      * unfold fs. rewrite L_nil_beyond; [reflexivity|]. fold fs size. lia.
    + exists ft. split; auto. intros k. unfold ft_at.
      destruct (nth_error (ft_entries t) k) as [[e|]|] eqn:He.
      * assert (Hlt := nth_error_lt _ _ _ He). destruct (Hs _ _ _ He (Hrn _ Hlt)) as [Hs1 Hs2]. rewrite Hs1.
        destruct (nth_error counts k) as [c|] eqn:Hc; [|apply nth_error_None in Hc; lia].
        destruct (Hsome _ _ _ He Hc) as (A1 & A2 & A3 & A4 & A5).
        simpl. split; auto. assert (Hu := used_le (ft_entries t) counts). assert (Hcc := Hcounts _ _ Hc).
        fold fs. split; [destruct (L k fs); simpl in *; try congruence; lia|].
        split; [rewrite Hl2, Hpls; lia|]. split; auto.
      * rewrite (Hn _ He). now apply Hnone.
      * apply nth_error_None in He. rewrite (proj2 (nth_error_None _ _)) by lia.
        unfold fs. apply L_nil_beyond. fold fs size. lia.
Qed.

End Build.
