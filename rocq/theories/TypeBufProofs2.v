(** Proofs about the memory of a type (TypeBuf.v): the other arrays and the whole buffer *)
From Coq Require Import List Arith ZArith NArith Lia Bool Permutation.
From Verif Require Import Base BaseLemmas Sv Info TypeBuild TypeBuildProofs TypesProofs TypeQuery TypeBuf SpecBuf TypeBufProofs.
Import ListNotations.
Local Open Scope N_scope.

Lemma store_all_ok size width : 0 < width -> forall l M p, p + N.of_nat (length l) * width <= size -> p mod width = 0 ->
  exists M', store_all size M p width l = Ok M' /\ (forall n w, nth_error l n = Some w -> holds M' (p + N.of_nat n * width) width w) /\ only M M' p (N.of_nat (length l) * width).
Proof.
  intros W. induction l as [|x l IH]; intros M p SZ A.
  - exists M. split; [reflexivity|]. split; [|apply only_refl]. intros [|n] y Hy; discriminate.
  - cbn [store_all length] in *.
    assert (X : N.of_nat (S (length l)) * width = width + N.of_nat (length l) * width) by lia. rewrite X in *.
    destruct (store_ok size M p width x) as (M1 & E1 & H1 & O1); [lia|auto|]. rewrite E1. simpl.
    destruct (IH M1 (p + width)) as (M2 & E2 & H2 & O2); [lia|apply al_add; auto; [lia|apply N.mod_same; lia]|].
    exists M2. split; [exact E2|]. split.
    + intros [|n] y Hy; simpl in Hy.
      * injection Hy as <-. rewrite N.mul_0_l, N.add_0_r. eapply holds_same; [eapply only_same; [exact O2|lia]|exact H1].
      * replace (p + N.of_nat (S n) * width) with (p + width + N.of_nat n * width) by lia. apply H2. exact Hy.
    + eapply only_trans; [eapply only_sub; [exact O1|lia|lia]|eapply only_sub; [exact O2|lia|lia]].
Qed.

Definition enc (o : option nat) : N := match o with Some i => N.of_nat i | None => invalid_index end.
Definition RepS (M : bmem) (p : N) (sp : list (option nat)) : Prop := forall k o, nth_error sp k = Some o -> holds M (p + N.of_nat k * 4) 4 (WNum (enc o)).

Lemma fill_sparse_mem_ok size mid p num : p + N.of_nat num * 4 <= size -> p mod 4 = 0 -> forall ms sp sp' M, length sp = num -> RepS M p sp ->
  fill_sparse mid ms sp = Ok sp' ->
  exists M', fill_sparse_mem size mid p num ms M = Ok M' /\ RepS M' p sp' /\ length sp' = num /\ only M M' p (N.of_nat num * 4).
Proof.
  intros SZ A. induction ms as [|[i m] ms IH]; intros sp sp' M L R H; cbn [fill_sparse fill_sparse_mem] in *.
  - injection H as <-. exists M. split; [reflexivity|]. split; [exact R|]. split; [exact L|apply only_refl].
  - destruct (mid m) as [k|]; [|discriminate]. rewrite L in H. destruct (k <? num)%nat eqn:Hk; [|discriminate]. apply Nat.ltb_lt in Hk.
    assert (B : N.of_nat k + 1 <= N.of_nat num) by lia.
    destruct (store_ok size M (p + N.of_nat k * 4) 4 (WNum (N.of_nat i))) as (M1 & E1 & H1 & O1); [lia|apply al_add; auto; [lia|apply al_mul; [lia|reflexivity]]|].
    rewrite E1. simpl.
    apply (IH _ _ M1) in H; [|now rewrite length_set_nth|].
    + destruct H as (M' & E' & R' & L' & O'). exists M'. split; [exact E'|]. split; [exact R'|]. split; [exact L'|].
      eapply only_trans; [|exact O']. eapply only_sub; [exact O1|lia|lia].
    + intros j o Hj. rewrite nth_set in Hj by lia. destruct (Nat.eqb_spec j k) as [->|Hne].
      * injection Hj as <-. exact H1.
      * eapply holds_same; [|apply R; exact Hj]. eapply only_same; [exact O1|].
        assert (N.of_nat j + 1 <= N.of_nat k \/ N.of_nat k + 1 <= N.of_nat j) by lia. lia.
Qed.

(** sizes *)
Lemma u32_id n : n < 4294967296 -> u32 n = n.
Proof. intros H. unfold u32. now apply N.mod_small. Qed.
Lemma length_count fid fs : forall c c', count_pls fid fs c = Ok c' -> length c' = length c.
Proof.
  induction fs as [|[i f] fs IH]; simpl; intros c c' H; [now injection H as <-|].
  destruct (fid (ff_info f)) as [k|]; [|discriminate]. destruct (nth_error c k); [|discriminate].
  apply IH in H. now rewrite length_set_nth in H.
Qed.
Lemma layout_loop_length E : forall ms sz al o s a, layout_loop E ms sz al = Ok (o, s, a) -> length o = length ms.
Proof.
  induction ms as [|m ms IH]; intros sz al o s a H; simpl in H; [now injection H as <- _ _|].
  destruct (external (e_mixin E m)).
  - destruct (layout_loop E ms sz al) as [[[o' s'] a']|e|u] eqn:L; simpl in H; try discriminate. injection H as <- _ _. simpl. f_equal. eapply IH; eauto.
  - destruct (negb _); [discriminate|]. destruct (layout_loop E ms _ _) as [[[o' s'] a']|e|u] eqn:L; simpl in H; try discriminate. injection H as <- _ _. simpl. f_equal. eapply IH; eauto.
Qed.
Lemma layout_loop_throw E : forall ms sz al x, layout_loop E ms sz al <> Throw x.
Proof.
  induction ms as [|m ms IH]; intros sz al x; simpl; [discriminate|]. destruct (external (e_mixin E m)).
  - specialize (IH sz al). destruct (layout_loop E ms sz al); simpl; congruence.
  - destruct (negb _); [discriminate|]. match goal with |- context [layout_loop E ms ?a ?b] => specialize (IH a b); destruct (layout_loop E ms a b) end; simpl; congruence.
Qed.
Lemma fill_sparse_throw mid ms : forall sp x, fill_sparse mid ms sp <> Throw x.
Proof. induction ms as [|[i m] ms IH]; intros sp x; simpl; [discriminate|]. destruct (mid m); [|discriminate]. destruct (n <? length sp)%nat; [auto|discriminate]. Qed.
Lemma count_pls_throw fid fs : forall c x, count_pls fid fs c <> Throw x.
Proof.
  induction fs as [|[i f] fs IH]; intros c x; simpl; [discriminate|]. destruct (fid (ff_info f)); [|discriminate].
  destruct (nth_error c n); [auto|discriminate].
Qed.
Lemma fill_pls_throw fid counts fs : forall t n x, fill_pls fid counts fs t n <> Throw x.
Proof.
  induction fs as [|[i f] fs IH]; intros t n x; cbn [fill_pls]; [discriminate|]. destruct (fid (ff_info f)) as [k|]; [|discriminate].
  destruct (nth_error (ft_entries t) k) as [oe|]; [|discriminate]. destruct (nth_error counts k) as [num|]; [|discriminate].
  destruct (num =? 0)%nat; [discriminate|].
  destruct (match oe with Some e => (e, n) | None => ({| fe_begin := n; fe_back := n; fe_end := n |}, (n + num)%nat) end) as [e nx].
  destruct (fe_end e <? length (ft_pls t))%nat; [apply IH|discriminate].
Qed.
Lemma size_le fid (fs : list (nat * ffm)) F : (forall i f k, In (i, f) fs -> fid (ff_info f) = Some k -> (k < F)%nat) -> (ftable_size fid fs <= F)%nat.
Proof.
  unfold ftable_size. intros H. assert (G : forall s, (s <= F)%nat -> (fold_left (fun s x =>
    let size_with := match fid (ff_info (snd x)) with Some i => S i | None => 0%nat end in
    if (s <? size_with)%nat then size_with else s) fs s <= F)%nat); [|apply G; lia].
  induction fs as [|[i f] fs IH]; intros s Hs; simpl; auto. apply IH; [intros; eapply H; [right|]; eauto|].
  destruct (fid (ff_info f)) as [k|] eqn:Hk; simpl.
  - destruct (s <? S k)%nat; auto. apply (H i f k); [now left|exact Hk].
  - auto.
Qed.
Lemma sparse_le mid ms S0 : (forall m k, In m ms -> mid m = Some k -> (k < S0)%nat) -> (num_sparse mid ms <= S0)%nat.
Proof.
  unfold num_sparse. intros H. assert (G : forall s, (s <= S0)%nat -> (fold_left (fun s m => Nat.max s (match mid m with Some i => S i | None => 0%nat end)) ms s <= S0)%nat); [|apply G; lia].
  induction ms as [|m ms IH]; intros s Hs; simpl; auto. apply IH; [intros; eapply H; [right|]; eauto|].
  destruct (mid m) as [k|] eqn:Hk; [|lia]. pose proof (H m k (or_introl eq_refl) Hk). lia.
Qed.
Lemma all_features_in E ms i f : In (i, f) (all_features E ms) -> exists m, In m ms /\ In f (m_features (e_mixin E m)).
Proof.
  unfold all_features. intros H. apply in_flat_map in H. destruct H as ([j m] & A & B). simpl in B. apply in_map_iff in B. destruct B as (g & [= -> ->] & B).
  exists m. split; [|exact B]. clear B. generalize dependent 0%nat. induction ms as [|x ms IH]; simpl; intros n A; [contradiction|].
  destruct A as [[= -> ->]|A]; eauto.
Qed.
Lemma all_features_length E ms : length (all_features E ms) = length (flat_map (fun m => m_features (e_mixin E m)) ms).
Proof.
  unfold all_features. generalize 0%nat. induction ms as [|x ms IH]; intros n; simpl; auto. rewrite !app_length, map_length, IH. reflexivity.
Qed.

Section Whole.
Variable E : env.
Variable fid : fptr -> option nat.
Variable mid : mptr -> option nat.
Variable T : N.
Hypothesis HT : T mod 8 = 0.

Definition bytes (ms : list mptr) : N :=
  T + N.of_nat (ftable_size fid (all_features E ms)) * 24 + N.of_nat (length (all_features E ms)) * 24 + N.of_nat (length ms) * 12 + N.of_nat (num_sparse mid ms) * 4.

Lemma fits_bytes ms : fits E fid mid T ms -> bytes ms < 4294967296.
Proof.
  intros (F & S & A & B & C). unfold bytes. rewrite all_features_length.
  assert (ftable_size fid (all_features E ms) <= F)%nat.
  { apply size_le. intros i f k Hin. apply all_features_in in Hin. destruct Hin as (m & H1 & H2). eauto. }
  assert (num_sparse mid ms <= S)%nat by (apply sparse_le; eauto). lia.
Qed.

Lemma type_bytes_eq counts ms : bytes ms < 4294967296 -> length counts = ftable_size fid (all_features E ms) ->
  ftable_bytes counts (length (all_features E ms)) = N.of_nat (length counts) * 24 + N.of_nat (length (all_features E ms)) * 24 /\
  u32 (N.of_nat (length ms) * 8) = N.of_nat (length ms) * 8 /\ u32 (N.of_nat (length ms) * 4) = N.of_nat (length ms) * 4 /\
  type_bytes E mid T counts ms = bytes ms.
Proof.
  intros B L. unfold bytes in B. rewrite <- L in B.
  assert (X : ftable_bytes counts (length (all_features E ms)) = N.of_nat (length counts) * 24 + N.of_nat (length (all_features E ms)) * 24).
  { unfold ftable_bytes, sizeof_entry, sizeof_payload. apply u32_id. lia. }
  assert (Y : u32 (N.of_nat (length ms) * 8) = N.of_nat (length ms) * 8) by (apply u32_id; lia).
  assert (Z : u32 (N.of_nat (length ms) * 4) = N.of_nat (length ms) * 4) by (apply u32_id; lia).
  split; [exact X|]. split; [exact Y|]. split; [exact Z|].
  unfold type_bytes. rewrite X, Y, Z, (u32_id (N.of_nat (num_sparse mid ms) * 4)) by lia. unfold bytes. rewrite <- L. rewrite u32_id by lia. lia.
Qed.

(** what the ftable looks like after the four passes *)
Lemma build_ftable_mem_ok size ms counts M : length counts = ftable_size fid (all_features E ms) ->
  ftable_bytes counts (length (all_features E ms)) = N.of_nat (length counts) * 24 + N.of_nat (length (all_features E ms)) * 24 ->
  T + N.of_nat (length counts) * 24 + N.of_nat (length (all_features E ms)) * 24 <= size ->
  match build_ftable E fid ms counts with
  | Ok ft => exists M', build_ftable_mem size E fid ms counts T M = Ok M' /\
      RepE T (length counts) M' (ft_entries ft) /\ RepP T (length counts) (length (all_features E ms)) M' (ft_pls ft) /\
      only M M' T (N.of_nat (length counts) * 24 + N.of_nat (length (all_features E ms)) * 24)
  | Throw x => build_ftable_mem size E fid ms counts T M = Throw x
  | Ub _ => True
  end.
Proof.
  intros LC FB SZ. unfold build_ftable, build_ftable_mem. rewrite FB. set (fs := all_features E ms) in *.
  set (ne := length counts) in *. set (np := length fs) in *.
  destruct (zero_ok size M T (N.of_nat ne * 24 + N.of_nat np * 24)) as (M1 & E1 & Z1 & O1); [lia|]. rewrite E1. simpl.
  destruct (fill_pls fid counts fs _ 0) as [t|x|u] eqn:F; simpl; [|exfalso; eapply fill_pls_throw; exact F|exact I].
  assert (R0 : RepE T ne M1 (repeat None ne)).
  { split; [apply repeat_length|]. intros k oe Hk. pose proof (nth_error_lt _ _ _ Hk) as Hl. rewrite repeat_length in Hl.
    apply nth_error_In, repeat_spec in Hk. subst oe. simpl. eapply zeros_sub; [exact Z1|unfold entry_at; lia|].
    unfold entry_at, sizeof_entry. assert (N.of_nat k + 1 <= N.of_nat ne) by lia. lia. }
  assert (P0 : RepP T ne np M1 (repeat None np)).
  { split; [apply repeat_length|]. intros k oe Hk. apply nth_error_In, repeat_spec in Hk. discriminate. }
  assert (B0 : bounded np (repeat None ne)).
  { intros k e Hk. apply nth_error_In, repeat_spec in Hk. discriminate. }
  destruct (fill_mem_ok size fid T ne np HT SZ counts eq_refl fs {| ft_entries := repeat None ne; ft_pls := repeat None np |} 0%nat t M1 R0 P0 B0 F) as (M2 & E2 & RE2 & RP2 & BD2 & O2).
  assert (L0 : loc T ne 0 = T + N.of_nat ne * sizeof_entry) by (unfold loc, base, sizeof_entry; lia). rewrite L0 in E2.
  change (T + N.of_nat ne * sizeof_entry) with (T + N.of_nat ne * sizeof_entry) in E2. rewrite E2. simpl.
  pose proof (finish_mem_ok size E T ne np HT SZ (ft_entries t) [] (ft_pls t) M2 RE2 RP2 BD2) as FF. simpl in FF.
  rewrite (proj1 RE2) in FF. destruct (finish_entries E (ft_entries t) (ft_pls t)) as [ft|x|u]; simpl; [|exact FF|exact I].
  destruct FF as (M3 & E3 & RE3 & RP3 & O3). exists M3. split; [exact E3|]. split; [exact RE3|]. split; [exact RP3|].
  assert (EX : extent ne np = N.of_nat ne * 24 + N.of_nat np * 24) by (unfold extent; lia). rewrite EX in *.
  eapply only_trans; [exact O1|]. eapply only_trans; eauto.
Qed.

Theorem create_block_ok mdom a d ms M : fits E fid mid T ms ->
  match build_type E fid mid mdom a d ms with
  | Ok t => exists M' h, create_block E fid mid T mdom a d ms M = Ok (M', h) /\ buffer_of T M M' h t
  | Throw x => create_block E fid mid T mdom a d ms M = Throw x
  | Ub _ => True
  end.
Proof.
  intros FT. pose proof (fits_bytes ms FT) as B. unfold build_type, create_block.
  destruct (check_mixins mid mdom d ms) as [?|x|u]; simpl; auto.
  unfold ftable_counts. destruct (count_pls fid (all_features E ms) _) as [counts|x|u] eqn:C; simpl; auto.
  apply length_count in C. rewrite repeat_length in C.
  destruct (length ms =? 0)%nat; auto. destruct a; simpl; auto.
  destruct (type_bytes_eq counts ms B C) as (FB & U8 & U4 & TB). rewrite TB.
  assert (BE : bytes ms = T + N.of_nat (length counts) * 24 + N.of_nat (length (all_features E ms)) * 24 + N.of_nat (length ms) * 12 + N.of_nat (num_sparse mid ms) * 4) by (unfold bytes; now rewrite C).
  destruct (bytes ms <? T) eqn:LT; [apply N.ltb_lt in LT; lia|]. clear LT.
  pose proof (build_ftable_mem_ok (bytes ms) ms counts M C FB) as BF.
  destruct (build_ftable E fid ms counts) as [ft|x|u]; [|rewrite BF by lia; reflexivity|exact I].
  destruct BF as (M1 & E1 & RE1 & RP1 & O1); [lia|]. rewrite E1. simpl. rewrite FB, U8, U4.
  set (ne := length counts) in *. set (np := length (all_features E ms)) in *. set (nm := length ms) in *. set (ns := num_sparse mid ms) in *.
  set (pmx := T + (N.of_nat ne * 24 + N.of_nat np * 24)).
  assert (Apmx : pmx mod 8 = 0).
  { unfold pmx. apply al_add; auto; [lia|]. apply al_add; [lia|apply al_mul; [lia|reflexivity]|apply al_mul; [lia|reflexivity]]. }
  destruct (store_all_ok (bytes ms) 8 ltac:(lia) (map WMixin ms) M1 pmx) as (M2 & E2 & H2 & O2); [rewrite map_length; fold nm; unfold pmx; lia|auto|].
  rewrite E2. simpl. rewrite map_length in O2. fold nm in O2.
  destruct (layout E ms) as [[[offs osz] oal]|x|u] eqn:LA; simpl; [|exfalso; eapply layout_loop_throw; exact LA|exact I].
  assert (LO : length offs = nm) by (eapply layout_loop_length; exact LA).
  set (pof := pmx + N.of_nat nm * 8).
  assert (Apof : pof mod 4 = 0).
  { unfold pof. apply al_add; [lia|now apply al_4|]. apply al_mul; [lia|reflexivity]. }
  destruct (store_all_ok (bytes ms) 4 ltac:(lia) (map WNum offs) M2 pof) as (M3 & E3 & H3 & O3); [rewrite map_length, LO; unfold pof, pmx; lia|auto|].
  rewrite E3. simpl. rewrite map_length, LO in O3.
  set (psp := pof + N.of_nat nm * 4).
  assert (Apsp : psp mod 4 = 0).
  { unfold psp. apply al_add; [lia|auto|]. apply al_mul; [lia|reflexivity]. }
  unfold build_sparse. fold ns.
  destruct (store_all_ok (bytes ms) 4 ltac:(lia) (repeat (WNum invalid_index) ns) M3 psp) as (M4 & E4 & H4 & O4); [rewrite repeat_length; unfold psp, pof, pmx; lia|auto|].
  rewrite E4. simpl. rewrite repeat_length in O4.
  destruct (fill_sparse mid (enumerate 0 ms) (repeat None ns)) as [sp|x|u] eqn:FS; simpl; [|exfalso; eapply fill_sparse_throw; exact FS|exact I].
  assert (R4 : RepS M4 psp (repeat None ns)).
  { intros k o Hk. pose proof (nth_error_lt _ _ _ Hk) as Hl. rewrite repeat_length in Hl. apply nth_error_In, repeat_spec in Hk. subst o.
    apply H4. rewrite nth_error_repeat by exact Hl. reflexivity. }
  destruct (fill_sparse_mem_ok (bytes ms) mid psp ns ltac:(unfold psp, pof, pmx; lia) Apsp _ _ _ M4 (repeat_length _ _) R4 FS) as (M5 & E5 & R5 & L5 & O5).
  rewrite E5. simpl. eexists. eexists. split; [reflexivity|].
  assert (SM : same M1 M5 T (N.of_nat ne * 24 + N.of_nat np * 24)).
  { eapply same_trans; [eapply only_same; [exact O2|unfold pmx; lia]|]. eapply same_trans; [eapply only_same; [exact O3|unfold pof, pmx; lia]|].
    eapply same_trans; [eapply only_same; [exact O4|unfold psp, pof, pmx; lia]|]. eapply only_same; [exact O5|unfold psp, pof, pmx; lia]. }
  assert (RE5 : forall k oe, nth_error (ft_entries ft) k = Some oe -> tri T ne M5 (entry_at T k) oe).
  { intros k oe Hk. pose proof (nth_error_lt _ _ _ Hk) as Hl. rewrite (proj1 RE1) in Hl. fold ne in Hl. eapply tri_same; [|apply (proj2 RE1); exact Hk].
    eapply same_sub; [exact SM|unfold entry_at; lia|]. unfold entry_at, sizeof_entry. assert (N.of_nat k + 1 <= N.of_nat ne) by lia. lia. }
  assert (RP5 : forall n x, nth_error (ft_pls ft) n = Some (Some x) -> pay M5 (loc T ne n) x).
  { intros n x Hn. pose proof (nth_error_lt _ _ _ Hn) as Hl. rewrite (proj1 RP1) in Hl. fold np in Hl. eapply pay_same; [|apply (proj2 RP1); exact Hn].
    eapply same_sub; [exact SM|unfold loc, base; lia|]. unfold loc, base. assert (N.of_nat n + 1 <= N.of_nat np) by lia. lia. }
  pose proof (proj1 RE1) as LE. pose proof (proj1 RP1) as LPL. fold ne in LE. fold np in LPL.
  constructor; simpl.
  - rewrite LE, LPL, L5. unfold bytes in BE |- *. rewrite BE. lia.
  - intros x Hx. rewrite BE in Hx. rewrite O5, O4, O3, O2, O1; auto; unfold psp, pof, pmx; lia.
  - split; reflexivity.
  - reflexivity.
  - intros i m Hi. pose proof (nth_error_lt _ _ _ Hi) as Hl. fold nm in Hl. unfold mem_mixin. simpl.
    assert (N.of_nat i + 1 <= N.of_nat nm) by lia.
    rewrite (load_holds (bytes ms) M5 _ 8 (WMixin m)); [reflexivity|unfold pmx; lia|apply al_add; auto; [lia|apply al_mul; [lia|reflexivity]]|lia|].
    eapply holds_same; [eapply only_same; [exact O5|unfold psp, pof, pmx; lia]|]. eapply holds_same; [eapply only_same; [exact O4|unfold psp, pof, pmx; lia]|].
    eapply holds_same; [eapply only_same; [exact O3|unfold psp, pof, pmx; lia]|]. apply H2. rewrite nth_error_map, Hi. reflexivity.
  - intros i o Hi. pose proof (nth_error_lt _ _ _ Hi) as Hl. rewrite LO in Hl. unfold mem_offset. simpl.
    assert (N.of_nat i + 1 <= N.of_nat nm) by lia.
    rewrite (load_holds (bytes ms) M5 _ 4 (WNum o)); [reflexivity|unfold pof, pmx; lia|apply al_add; auto; [lia|apply al_mul; [lia|reflexivity]]|lia|].
    eapply holds_same; [eapply only_same; [exact O5|unfold psp, pof, pmx; lia]|]. eapply holds_same; [eapply only_same; [exact O4|unfold psp, pof, pmx; lia]|].
    apply H3. rewrite nth_error_map, Hi. reflexivity.
  - intros [k|]; simpl; auto. rewrite <- L5. destruct (nth_error sp k) as [o|] eqn:Hk.
    + pose proof (nth_error_lt _ _ _ Hk) as Hl. destruct (length sp <=? k)%nat eqn:Hle; [apply Nat.leb_le in Hle; lia|].
      rewrite L5 in Hl. assert (N.of_nat k + 1 <= N.of_nat ns) by lia.
      rewrite (load_holds (bytes ms) M5 _ 4 (WNum (enc o))); [|unfold psp, pof, pmx; lia|apply al_add; auto; [lia|apply al_mul; [lia|reflexivity]]|lia|apply R5; exact Hk].
      cbn [bind]. destruct o as [i|]; cbn [enc]; [|now rewrite N.eqb_refl].
      assert (IB : (i < nm)%nat).
      { clear - FS Hk. unfold nm. assert (G : forall l n sp0 sp1, (forall k0 i0, nth_error sp0 k0 = Some (Some i0) -> (i0 < n)%nat) -> fill_sparse mid (enumerate n l) sp0 = Ok sp1 ->
          forall k0 i0, nth_error sp1 k0 = Some (Some i0) -> (i0 < n + length l)%nat).
        { induction l as [|m l IH]; intros n sp0 sp1 H0 F k0 i0 Hk0; simpl in F.
          - injection F as <-. rewrite Nat.add_0_r. eauto.
          - destruct (mid m) as [km|]; [|discriminate]. destruct (km <? length sp0)%nat eqn:Hkm; [|discriminate]. apply Nat.ltb_lt in Hkm.
            simpl. rewrite Nat.add_succ_r, <- Nat.add_succ_l. eapply IH; [|exact F|exact Hk0]. intros k1 i1 Hk1. rewrite nth_set in Hk1 by exact Hkm.
            destruct (k1 =? km)%nat; [injection Hk1 as <-; lia|]. apply H0 in Hk1. lia. }
        refine (G ms 0%nat (repeat None (num_sparse mid ms)) sp _ FS k i Hk). intros k0 i0 H0. apply nth_error_In, repeat_spec in H0. discriminate. }
      destruct (N.eqb_spec (N.of_nat i) invalid_index) as [Hi|Hi]; [unfold invalid_index in Hi; lia|]. now rewrite Nat2N.id.
    + apply nth_error_None in Hk. apply Nat.leb_le in Hk. rewrite Hk. reflexivity.
  - exists (loc T ne). split; [|split].
    + intros n. unfold loc. lia.
    + intros [k|]; simpl; auto. fold ne. destruct (nth_error (ft_entries ft) k) as [oe|] eqn:Hk.
      * pose proof (nth_error_lt _ _ _ Hk) as Hl. rewrite LE in Hl. destruct (ne <=? k)%nat eqn:Hle; [apply Nat.leb_le in Hle; lia|].
        assert (KB : entry_at T k + 24 <= bytes ms) by (unfold entry_at, sizeof_entry; assert (N.of_nat k + 1 <= N.of_nat ne) by lia; lia).
        pose proof (RE5 k oe Hk) as TR. pose proof (al_entry T HT k) as AE. destruct oe as [e|]; simpl in TR.
        -- destruct TR as (T1 & T2 & T3).
           rewrite (load_holds (bytes ms) M5 (entry_at T k) 8 (WPtr (loc T ne (fe_begin e)))) by (auto; lia). simpl.
           rewrite (load_holds (bytes ms) M5 (entry_at T k + 8) 8 (WPtr (loc T ne (fe_back e)))); [|lia|apply al_add; auto; lia|lia|exact T2]. simpl.
           rewrite (load_holds (bytes ms) M5 (entry_at T k + 16) 8 (WPtr (loc T ne (fe_end e)))); [|lia|apply al_add; auto; lia|lia|exact T3]. reflexivity.
        -- rewrite (load_zeros (bytes ms) M5 (entry_at T k) 8); [|lia|auto|lia|eapply zeros_sub; [exact TR|lia|lia]]. simpl.
           rewrite (load_zeros (bytes ms) M5 (entry_at T k + 8) 8); [|lia|apply al_add; auto; lia|lia|eapply zeros_sub; [exact TR|lia|lia]]. simpl.
           rewrite (load_zeros (bytes ms) M5 (entry_at T k + 16) 8); [|lia|apply al_add; auto; lia|lia|eapply zeros_sub; [exact TR|lia|lia]]. reflexivity.
      * apply nth_error_None in Hk. rewrite LE in Hk. apply Nat.leb_le in Hk. rewrite Hk. reflexivity.
    + intros n x Hn. unfold mem_payload. simpl. apply read_payload_ok; [|apply al_loc; auto|apply RP5; exact Hn].
      pose proof (nth_error_lt _ _ _ Hn) as Hl. rewrite LPL in Hl. unfold loc, base. assert (N.of_nat n + 1 <= N.of_nat np) by lia. lia.
Qed.

End Whole.

(** more than 32 bits *)
Definition wide_env : env := {|
  e_mixin := fun m => {| m_name := {| sv_begin := 1; sv_bytes := [97] |}; m_size := 8; m_align := 8; m_buf_size := 0; m_buf_off := 0;
    m_init := true; m_copy_init := true; m_move_init := true; m_copy_asgn := true; m_move_asgn := true;
    m_destroy := true; m_equals := true; m_compare := true; m_allocator := None; m_features := [];
    m_order := 0; m_force_external := false; m_dependency := false |};
  e_feature := fun f => {| f_name := {| sv_begin := 2; sv_bytes := [98] |}; f_allow_clashes := false; f_default := None |};
  e_rule := fun r => {| r_name := {| sv_begin := 2; sv_bytes := [98] |}; r_apply := None; r_prio := 0 |};
  e_tc := fun c => {| c_name := {| sv_begin := 2; sv_bytes := [98] |}; c_matches := None |};
  e_settings := fun d => {| s_canonicalize := false; s_dup_features := false; s_dup_mixins := false |}; e_canon := fun d => d |}.
Lemma wide_any n : N.of_nat (S n) * 4 = 4294967296 ->
  let mid := fun _ : nat => Some n in let mdom := fun _ : nat => Some 0%nat in let fid := fun _ : nat => Some 0%nat in
  (exists t, build_type wide_env fid mid mdom true 0%nat [0%nat] = Ok t) /\
  forall M, create_block wide_env fid mid 128 mdom true 0%nat [0%nat] M = Ub UbOutOfBounds.
Proof.
  intros H mid mdom fid.
  assert (NS : num_sparse mid [0%nat] = S n) by (unfold num_sparse, mid; simpl; reflexivity).
  split.
  - unfold build_type. simpl check_mixins. cbn [bind]. unfold ftable_counts. simpl count_pls. cbn [bind]. cbn [length Nat.eqb negb].
    assert (BF : build_ftable wide_env fid [0%nat] [] = Ok {| ft_entries := []; ft_pls := [] |}) by reflexivity. rewrite BF. cbn [bind].
    assert (LY : exists l, layout wide_env [0%nat] = Ok l) by (eexists; vm_compute; reflexivity). destruct LY as (l & LY). rewrite LY. cbn [bind].
    unfold build_sparse. rewrite NS. cbn [enumerate fill_sparse]. unfold mid at 1. rewrite repeat_length.
    rewrite (proj2 (Nat.ltb_lt n (S n))) by lia. cbn [bind]. eexists. reflexivity.
  - intros M. unfold create_block. simpl check_mixins. cbn [bind]. unfold ftable_counts. simpl count_pls. cbn [bind]. cbn [length Nat.eqb negb].
    assert (TB : type_bytes wide_env mid 128 [] [0%nat] = 140).
    { unfold type_bytes. rewrite NS, H. reflexivity. }
    rewrite TB. change (140 <? 128) with false. cbn [Bool.eqb]. cbv iota.
    assert (BF : exists M1, build_ftable_mem 140 wide_env fid [0%nat] [] 128 M = Ok M1).
    { unfold build_ftable_mem. change (all_features wide_env [0%nat]) with (@nil (nat * ffm)). cbn [length]. change (ftable_bytes [] 0) with 0.
      unfold zero. change (128 + 0 <=? 140) with true. cbn [bind]. eexists. reflexivity. }
    destruct BF as (M1 & BF). rewrite BF. cbn [bind]. change (all_features wide_env [0%nat]) with (@nil (nat * ffm)). cbn [length]. change (ftable_bytes [] 0) with 0.
    change (u32 (N.of_nat 1 * 8)) with 8. change (u32 (N.of_nat 1 * 4)) with 4. change (128 + 0) with 128. change (128 + 8) with 136. change (136 + 4) with 140.
    assert (S1 : exists M2, store_all 140 M1 128 8 (map WMixin [0%nat]) = Ok M2) by (eexists; reflexivity). destruct S1 as (M2 & S1). rewrite S1. cbn [bind].
    assert (LY : exists o l, layout wide_env [0%nat] = Ok ([o], fst l, snd l)) by (exists 24, (32, 8); vm_compute; reflexivity). destruct LY as (o & l & LY). rewrite LY. cbn [bind fst snd map].
    assert (S2 : exists M3, store_all 140 M2 136 4 [WNum o] = Ok M3) by (eexists; reflexivity). destruct S2 as (M3 & S2). rewrite S2. cbn [bind].
    rewrite NS. cbn [repeat store_all]. unfold store at 1. change (access 140 140 4) with false. cbv iota. reflexivity.
Qed.
Lemma wide_block : exists E fid mid T mdom d ms t, T mod 8 = 0 /\ build_type E fid mid mdom true d ms = Ok t /\
  length ms = 1%nat /\ (forall m, m_features (e_mixin E m) = []) /\ (forall m k, mid m = Some k -> N.of_nat k < 1073741824) /\
  forall M, create_block E fid mid T mdom true d ms M = Ub UbOutOfBounds.
Proof.
  set (n := N.to_nat 1073741823). assert (X : N.of_nat n = 1073741823) by apply N2Nat.id.
  assert (H : N.of_nat (S n) * 4 = 4294967296) by (rewrite Nat2N.inj_succ, X; reflexivity). clearbody n.
  destruct (wide_any n H) as ((t & B) & C).
  exists wide_env, (fun _ => Some 0%nat), (fun _ => Some n), 128, (fun _ => Some 0%nat), 0%nat, [0%nat], t.
  split; [reflexivity|]. split; [exact B|]. split; [reflexivity|]. split; [reflexivity|]. split; [|exact C].
  intros m k [= <-]. rewrite X. reflexivity.
Qed.
