(** Proofs about the memory of a type (TypeBuf.v): words, payloads, the ftable *)
From Coq Require Import List Arith ZArith NArith Lia Bool Permutation.
From Verif Require Import Base BaseLemmas Sv Info TypeBuild TypeBuildProofs TypeBuf.
Import ListNotations.
Local Open Scope N_scope.

(** ** Words *)
Definition holds (M : bmem) (p width : N) (w : word) : Prop := forall i, i < width -> M (p + i) = Some (CByte w i).
Definition zeros (M : bmem) (p width : N) : Prop := forall i, i < width -> M (p + i) = Some CZero.
(** the same bytes at [p, p + n) *)
Definition same (M M' : bmem) (p n : N) : Prop := forall x, p <= x -> x < p + n -> M' x = M x.
(** the same bytes everywhere else *)
Definition only (M M' : bmem) (p n : N) : Prop := forall x, x < p \/ p + n <= x -> M' x = M x.

Lemma word_eqb_refl w : word_eqb w w = true.
Proof. destruct w; simpl; try apply N.eqb_refl; try apply Nat.eqb_refl. unfold ffm_eqb. now rewrite !Nat.eqb_refl, !Z.eqb_refl. Qed.

Lemma holds_same M M' p w x : same M M' p w -> holds M p w x -> holds M' p w x.
Proof. intros S H i Hi. rewrite S by lia. auto. Qed.
Lemma zeros_same M M' p w : same M M' p w -> zeros M p w -> zeros M' p w.
Proof. intros S H i Hi. rewrite S by lia. auto. Qed.
Lemma zeros_sub M p n q k : zeros M p n -> p <= q -> q + k <= p + n -> zeros M q k.
Proof. intros H Hq Hk i Hi. replace (q + i) with (p + (q - p + i)) by lia. apply H. lia. Qed.
Lemma only_same M M' p n q k : only M M' p n -> q + k <= p \/ p + n <= q -> same M M' q k.
Proof. intros O H x Hx Hx2. apply O. lia. Qed.
Lemma only_trans M M1 M2 p n : only M M1 p n -> only M1 M2 p n -> only M M2 p n.
Proof. intros A B x Hx. rewrite B, A; auto. Qed.
Lemma only_sub M M' p n q k : only M M' q k -> p <= q -> q + k <= p + n -> only M M' p n.
Proof. intros O Hp Hk x Hx. apply O. lia. Qed.
Lemma only_refl M p n : only M M p n.
Proof. intros x _. reflexivity. Qed.
Lemma same_trans M M1 M2 p n : same M M1 p n -> same M1 M2 p n -> same M M2 p n.
Proof. intros A B x Hx Hy. rewrite B, A; auto. Qed.
Lemma same_sub M M' p n q k : same M M' p n -> p <= q -> q + k <= p + n -> same M M' q k.
Proof. intros S Hp Hk x Hx Hy. apply S; lia. Qed.

Lemma all_bytes_holds M p w n : (forall i, i < N.of_nat n -> M (p + i) = Some (CByte w i)) -> all_bytes M p (Some w) n = true.
Proof.
  induction n as [|n IH]; intros H; simpl; auto. rewrite IH by (intros i Hi; apply H; lia).
  rewrite H by lia. simpl. now rewrite word_eqb_refl, N.eqb_refl.
Qed.
Lemma all_bytes_zeros M p n : (forall i, i < N.of_nat n -> M (p + i) = Some CZero) -> all_bytes M p None n = true.
Proof. induction n as [|n IH]; intros H; simpl; auto. rewrite IH by (intros i Hi; apply H; lia). now rewrite H by lia. Qed.

Lemma access_ok size p width : p + width <= size -> p mod width = 0 -> access size p width = true.
Proof. intros A B. unfold access. apply andb_true_iff. split; [now apply N.leb_le|now apply N.eqb_eq]. Qed.
Lemma load_holds size M p width w : p + width <= size -> p mod width = 0 -> 0 < width -> holds M p width w -> load size M p width = Ok (Some w).
Proof.
  intros A B W H. unfold load. rewrite access_ok by auto. pose proof (H 0 W) as H0. rewrite N.add_0_r in H0. rewrite H0.
  rewrite all_bytes_holds; auto. intros i Hi. apply H. rewrite N2Nat.id in Hi. auto.
Qed.
Lemma load_zeros size M p width : p + width <= size -> p mod width = 0 -> 0 < width -> zeros M p width -> load size M p width = Ok None.
Proof.
  intros A B W H. unfold load. rewrite access_ok by auto. pose proof (H 0 W) as H0. rewrite N.add_0_r in H0. rewrite H0.
  rewrite all_bytes_zeros; auto. intros i Hi. apply H. rewrite N2Nat.id in Hi. auto.
Qed.
Lemma store_ok size M p width w : p + width <= size -> p mod width = 0 ->
  exists M', store size M p width w = Ok M' /\ holds M' p width w /\ only M M' p width.
Proof.
  intros A B. unfold store. rewrite access_ok by auto. eexists. split; [reflexivity|]. split.
  - intros i Hi. rewrite (proj2 (N.leb_le _ _)), (proj2 (N.ltb_lt _ _)) by lia. simpl. do 2 f_equal. lia.
  - intros x [Hx|Hx].
    + rewrite (proj2 (N.leb_gt _ _)) by lia. reflexivity.
    + rewrite (proj2 (N.ltb_ge _ _)) by lia. now rewrite andb_false_r.
Qed.
Lemma zero_ok size M p n : p + n <= size -> exists M', zero size M p n = Ok M' /\ zeros M' p n /\ only M M' p n.
Proof.
  intros A. unfold zero. rewrite (proj2 (N.leb_le _ _)) by auto. eexists. split; [reflexivity|]. split.
  - intros i Hi. rewrite (proj2 (N.leb_le _ _)), (proj2 (N.ltb_lt _ _)) by lia. reflexivity.
  - intros x [Hx|Hx].
    + rewrite (proj2 (N.leb_gt _ _)) by lia. reflexivity.
    + rewrite (proj2 (N.ltb_ge _ _)) by lia. now rewrite andb_false_r.
Qed.

(** alignment *)
Lemma al_add p n k : n <> 0 -> p mod n = 0 -> k mod n = 0 -> (p + k) mod n = 0.
Proof. intros H A B. rewrite N.add_mod, A, B by auto. now rewrite N.add_0_l, N.mod_0_l. Qed.
Lemma al_mul k n c : n <> 0 -> c mod n = 0 -> (k * c) mod n = 0.
Proof. intros H A. rewrite N.mul_mod, A by auto. now rewrite N.mul_0_r, N.mod_0_l. Qed.
Lemma al_4 p : p mod 8 = 0 -> p mod 4 = 0.
Proof. intros H. apply N.mod_divide in H; [|lia]. apply N.mod_divide; [lia|]. destruct H as (k & ->). exists (k * 2). lia. Qed.

(** ** Payloads *)
Definition pay (M : bmem) (p : N) (x : fpayload) : Prop :=
  holds M p 4 (WNum (N.of_nat (fp_mixin x))) /\ holds M (p + 8) 8 (WPay (fp_payload x)) /\ holds M (p + 16) 8 (WFeat (fp_data x)).
Lemma pay_same M M' p x : same M M' p 24 -> pay M p x -> pay M' p x.
Proof.
  intros S (A & B & C). split; [|split].
  - eapply holds_same; eauto. eapply same_sub; eauto; lia.
  - eapply holds_same; eauto. eapply same_sub; eauto; lia.
  - eapply holds_same; eauto. eapply same_sub; eauto; lia.
Qed.
Lemma write_one size M p a b c : p + 24 <= size -> p mod 8 = 0 ->
  exists M', (do M <- store size M p 4 a; do M <- store size M (p + 8) 8 b; store size M (p + 16) 8 c) = Ok M' /\
    holds M' p 4 a /\ holds M' (p + 8) 8 b /\ holds M' (p + 16) 8 c /\ only M M' p 24.
Proof.
  intros S A.
  destruct (store_ok size M p 4 a) as (M1 & E1 & H1 & O1); [lia|apply al_4; auto|]. rewrite E1. simpl.
  destruct (store_ok size M1 (p + 8) 8 b) as (M2 & E2 & H2 & O2); [lia|apply al_add; auto; lia|]. rewrite E2. simpl.
  destruct (store_ok size M2 (p + 16) 8 c) as (M3 & E3 & H3 & O3); [lia|apply al_add; auto; lia|]. rewrite E3.
  exists M3. split; [reflexivity|]. split; [|split; [|split; [exact H3|]]].
  - eapply holds_same; [eapply only_same; [exact O3|lia]|]. eapply holds_same; [eapply only_same; [exact O2|lia]|]. exact H1.
  - eapply holds_same; [eapply only_same; [exact O3|lia]|]. exact H2.
  - eapply only_trans; [|eapply only_sub; [exact O3|lia|lia]]. eapply only_trans; [|eapply only_sub; [exact O2|lia|lia]].
    eapply only_sub; [exact O1|lia|lia].
Qed.
Lemma put_payload_ok size M p i f : p + 24 <= size -> p mod 8 = 0 ->
  exists M', put_payload size M p i f = Ok M' /\ pay M' p {| fp_mixin := i; fp_payload := ff_payload f; fp_data := f |} /\ only M M' p 24.
Proof.
  intros S A. destruct (write_one size M p (WNum (N.of_nat i)) (WPay (ff_payload f)) (WFeat f) S A) as (M' & E & H1 & H2 & H3 & O).
  exists M'. split; [exact E|]. split; [split; [|split]; assumption|exact O].
Qed.
Lemma read_payload_ok size M p x : p + 24 <= size -> p mod 8 = 0 -> pay M p x -> read_payload size M p = Ok x.
Proof.
  intros S A (H1 & H2 & H3). unfold read_payload.
  rewrite (load_holds size M p 4 (WNum (N.of_nat (fp_mixin x)))) by (try assumption; try lia; now apply al_4). simpl.
  rewrite (load_holds size M (p + 8) 8 (WPay (fp_payload x))) by (try assumption; try lia; apply al_add; auto; lia). simpl.
  rewrite (load_holds size M (p + 16) 8 (WFeat (fp_data x))) by (try assumption; try lia; apply al_add; auto; lia). simpl.
  rewrite Nat2N.id. destruct x; reflexivity.
Qed.
Lemma read_payloads_ok size M : forall l p, p + N.of_nat (length l) * 24 <= size -> p mod 8 = 0 ->
  (forall n x, nth_error l n = Some x -> pay M (p + N.of_nat n * 24) x) -> read_payloads size M p (length l) = Ok l.
Proof.
  induction l as [|x l IH]; intros p SZ A H; simpl; auto.
  rewrite (read_payload_ok size M p x).
  - simpl. unfold sizeof_payload. rewrite IH; auto.
    + simpl in SZ. lia.
    + apply al_add; auto; lia.
    + intros n y Hy. replace (p + 24 + N.of_nat n * 24) with (p + N.of_nat (S n) * 24) by lia. apply H. exact Hy.
  - simpl in SZ. lia.
  - auto.
  - specialize (H O x eq_refl). now rewrite N.add_0_r in H.
Qed.
Lemma write_payloads_ok size : forall l M p, p + N.of_nat (length l) * 24 <= size -> p mod 8 = 0 ->
  exists M', write_payloads size M p l = Ok M' /\ (forall n x, nth_error l n = Some x -> pay M' (p + N.of_nat n * 24) x) /\ only M M' p (N.of_nat (length l) * 24).
Proof.
  induction l as [|x l IH]; intros M p SZ A.
  - simpl. exists M. split; [reflexivity|]. split; [|apply only_refl]. intros [|n] y Hy; discriminate.
  - cbn [write_payloads]. cbn [length] in *.
    destruct (write_one size M p (WNum (N.of_nat (fp_mixin x))) (WPay (fp_payload x)) (WFeat (fp_data x))) as (M1 & E1 & H1 & H2 & H3 & O1); [lia|auto|].
    destruct (store size M p 4 _) as [Ma|e|u] eqn:Ea; simpl in E1 |- *; try discriminate.
    destruct (store size Ma (p + 8) 8 _) as [Mb|e|u] eqn:Eb; simpl in E1 |- *; try discriminate. rewrite E1. simpl.
    destruct (IH M1 (p + sizeof_payload)) as (M2 & E2 & H & O2); [unfold sizeof_payload; lia|apply al_add; auto; unfold sizeof_payload; lia|].
    exists M2. split; [exact E2|]. unfold sizeof_payload in *. split.
    + intros [|n] y Hy; simpl in Hy.
      * injection Hy as <-. rewrite N.mul_0_l, N.add_0_r. eapply pay_same; [eapply only_same; [exact O2|lia]|]. split; [|split]; assumption.
      * replace (p + N.of_nat (S n) * 24) with (p + 24 + N.of_nat n * 24) by lia. apply H. exact Hy.
    + eapply only_trans; [eapply only_sub; [exact O1|lia|lia]|eapply only_sub; [exact O2|lia|lia]].
Qed.

Lemma nth_set {A} i j (x : A) l : (i < length l)%nat -> nth_error (set_nth i x l) j = if (j =? i)%nat then Some x else nth_error l j.
Proof.
  intros H. destruct (Nat.eqb_spec j i) as [->|Hne]; [now apply nth_error_set_nth_same|]. apply nth_error_set_nth_other. congruence.
Qed.

(** ** The ftable *)
Section Table.
Variable size : N.
Variable E : env.
Variable fid : fptr -> option nat.
Variable ptr : N.
Variable ne np : nat. (* number of entries, number of payloads *)
Hypothesis HA : ptr mod 8 = 0.
Hypothesis HS : ptr + N.of_nat ne * 24 + N.of_nat np * 24 <= size.

Definition base : N := ptr + N.of_nat ne * 24.
Definition loc (n : nat) : N := base + N.of_nat n * 24.
Definition tri (M : bmem) (p : N) (oe : option fentry) : Prop :=
  match oe with
  | None => zeros M p 24
  | Some e => holds M p 8 (WPtr (loc (fe_begin e))) /\ holds M (p + 8) 8 (WPtr (loc (fe_back e))) /\ holds M (p + 16) 8 (WPtr (loc (fe_end e)))
  end.
Definition RepE (M : bmem) (es : list (option fentry)) : Prop := length es = ne /\ forall k oe, nth_error es k = Some oe -> tri M (entry_at ptr k) oe.
Definition RepP (M : bmem) (pls : list (option fpayload)) : Prop := length pls = np /\ forall n x, nth_error pls n = Some (Some x) -> pay M (loc n) x.
Definition bounded (es : list (option fentry)) : Prop := forall k e, nth_error es k = Some (Some e) -> (fe_begin e <= fe_end e <= np)%nat.

Lemma tri_same M M' p oe : same M M' p 24 -> tri M p oe -> tri M' p oe.
Proof.
  clear HA HS. intros S. destruct oe as [e|]; simpl.
  - intros (A & B & C). split; [|split]; (eapply holds_same; [eapply same_sub; [exact S|lia|lia]|assumption]).
  - intros Z. eapply zeros_same; eauto.
Qed.
Lemma al_entry k : entry_at ptr k mod 8 = 0.
Proof. clear HS. unfold entry_at. apply al_add; auto; try lia. apply al_mul; [lia|reflexivity]. Qed.
Lemma al_loc n : loc n mod 8 = 0.
Proof. clear HS. unfold loc, base. apply al_add; [lia| |apply al_mul; [lia|reflexivity]]. apply al_add; auto; [lia|apply al_mul; [lia|reflexivity]]. Qed.
Lemma in_entry k : (k < ne)%nat -> entry_at ptr k + 24 <= base.
Proof. intros H. unfold entry_at, base, sizeof_entry. assert (N.of_nat k + 1 <= N.of_nat ne) by lia. nia. Qed.
Lemma in_loc n : (n < np)%nat -> loc n + 24 <= size.
Proof. intros H. unfold loc, base. assert (N.of_nat n + 1 <= N.of_nat np) by lia. nia. Qed.
Lemma base_size : base <= size.
Proof. unfold base. lia. Qed.
Lemma entry_apart i j : i <> j -> entry_at ptr i + 24 <= entry_at ptr j \/ entry_at ptr j + 24 <= entry_at ptr i.
Proof. intros H. unfold entry_at, sizeof_entry. assert (N.of_nat i + 1 <= N.of_nat j \/ N.of_nat j + 1 <= N.of_nat i) by lia. nia. Qed.
Lemma loc_apart i j : i <> j -> loc i + 24 <= loc j \/ loc j + 24 <= loc i.
Proof. intros H. unfold loc. assert (N.of_nat i + 1 <= N.of_nat j \/ N.of_nat j + 1 <= N.of_nat i) by lia. nia. Qed.
Lemma entry_base k : ptr <= entry_at ptr k.
Proof. unfold entry_at. lia. Qed.
Lemma base_loc n : base <= loc n.
Proof. unfold loc. lia. Qed.
Lemma loc_S n : loc (S n) = loc n + 24.
Proof. unfold loc. lia. Qed.
Lemma loc_add n k : loc (n + k) = loc n + N.of_nat k * 24.
Proof. unfold loc. lia. Qed.

(** a write in one entry *)
Lemma repe_entry M M' es k e : RepE M es -> (k < ne)%nat -> only M M' (entry_at ptr k) 24 -> tri M' (entry_at ptr k) e -> RepE M' (set_nth k e es).
Proof.
  intros (L & R) K O T. split; [now rewrite length_set_nth|]. intros j oe Hj. rewrite nth_set in Hj by lia.
  destruct (Nat.eqb_spec j k) as [->|Hne].
  - injection Hj as <-. exact T.
  - eapply tri_same; [|apply R; exact Hj]. eapply only_same; [exact O|]. apply entry_apart. congruence.
Qed.
Lemma repp_entry M M' pls k : RepP M pls -> (k < ne)%nat -> only M M' (entry_at ptr k) 24 -> RepP M' pls.
Proof.
  intros (L & R) K O. split; auto. intros n x Hn. eapply pay_same; [|apply R; exact Hn]. eapply only_same; [exact O|].
  right. pose proof (in_entry k K). pose proof (base_loc n). lia.
Qed.
(** a write in the payloads *)
Lemma repe_pls M M' es p n : RepE M es -> base <= p -> only M M' p n -> RepE M' es.
Proof.
  intros (L & R) P O. split; auto. intros k oe Hk. eapply tri_same; [|apply R; exact Hk]. eapply only_same; [exact O|].
  left. pose proof (nth_error_lt _ _ _ Hk) as Hl. rewrite L in Hl. pose proof (in_entry k Hl). lia.
Qed.

Lemma open_entry_ok M es pls k oe next num : RepE M es -> RepP M pls -> nth_error es k = Some oe ->
  exists M', open_entry size M (entry_at ptr k) (loc next) num =
      Ok (M', match oe with Some _ => loc next | None => loc (next + num) end) /\
    let e := match oe with Some e => e | None => {| fe_begin := next; fe_back := next; fe_end := next |} end in
    RepE M' (set_nth k (Some e) es) /\ RepP M' pls /\ only M M' (entry_at ptr k) 24.
Proof.
  intros RE RP Hk. pose proof (nth_error_lt _ _ _ Hk) as Hl. assert (K : (k < ne)%nat) by (destruct RE; lia).
  pose proof (in_entry k K) as IE. pose proof base_size as BS. pose proof (al_entry k) as AE.
  pose proof (proj2 RE k oe Hk) as T. unfold open_entry. destruct oe as [e|]; simpl in T.
  - destruct T as (T1 & T2 & T3). rewrite (load_holds size M _ 8 (WPtr (loc (fe_begin e)))) by (auto; lia). simpl.
    exists M. split; [reflexivity|]. split; [|split; [exact RP|apply only_refl]]. rewrite set_nth_id by exact Hk. exact RE.
  - rewrite load_zeros; [|lia|auto|lia|eapply zeros_sub; [exact T|lia|lia]]. simpl.
    set (p := entry_at ptr k) in *.
    destruct (store_ok size M p 8 (WPtr (loc next))) as (M1 & E1 & H1 & O1); [lia|auto|]. rewrite E1. simpl.
    destruct (store_ok size M1 (p + 8) 8 (WPtr (loc next))) as (M2 & E2 & H2 & O2); [lia|apply al_add; auto; lia|]. rewrite E2. simpl.
    destruct (store_ok size M2 (p + 16) 8 (WPtr (loc next))) as (M3 & E3 & H3 & O3); [lia|apply al_add; auto; lia|]. rewrite E3. simpl.
    assert (O : only M M3 p 24).
    { eapply only_trans; [|eapply only_sub; [exact O3|lia|lia]]. eapply only_trans; [|eapply only_sub; [exact O2|lia|lia]]. eapply only_sub; [exact O1|lia|lia]. }
    exists M3. split; [rewrite loc_add; reflexivity|]. split; [|split; [|exact O]].
    + eapply repe_entry; eauto. simpl. fold p. split; [|split; [|exact H3]].
      * eapply holds_same; [eapply only_same; [exact O3|lia]|]. eapply holds_same; [eapply only_same; [exact O2|lia]|]. exact H1.
      * eapply holds_same; [eapply only_same; [exact O3|lia]|]. exact H2.
    + eapply repp_entry; eauto.
Qed.

Lemma set_set_nth {A} k (x y : A) l : set_nth k x (set_nth k y l) = set_nth k x l.
Proof. apply set_nth_set_nth. Qed.

Definition extent : N := (N.of_nat ne + N.of_nat np) * 24.
Lemma only_entry M M' k : (k < ne)%nat -> only M M' (entry_at ptr k) 24 -> only M M' ptr extent.
Proof. intros K O. pose proof (in_entry k K). eapply only_sub; [exact O|apply entry_base|]. unfold extent, base in *. lia. Qed.
Lemma only_loc M M' n : (n < np)%nat -> only M M' (loc n) 24 -> only M M' ptr extent.
Proof. intros K O. eapply only_sub; [exact O|unfold loc, base; lia|]. unfold extent, loc, base. assert (N.of_nat n + 1 <= N.of_nat np) by lia. nia. Qed.

Lemma fill_mem_ok counts : length counts = ne -> forall fs t next t' M,
  RepE M (ft_entries t) -> RepP M (ft_pls t) -> bounded (ft_entries t) ->
  fill_pls fid counts fs t next = Ok t' ->
  exists M', fill_mem size fid counts ptr fs M (loc next) = Ok M' /\ RepE M' (ft_entries t') /\ RepP M' (ft_pls t') /\ bounded (ft_entries t') /\ only M M' ptr extent.
Proof.
  intros LC. induction fs as [|[i f] fs IH]; intros t next t' M RE RP BD H.
  - simpl in *. injection H as <-. exists M. split; [reflexivity|]. repeat (split; [assumption|]). apply only_refl.
  - cbn [fill_pls fill_mem] in *. destruct (fid (ff_info f)) as [k|]; [|discriminate].
    destruct (nth_error (ft_entries t) k) as [oe|] eqn:He; [|discriminate].
    destruct (nth_error counts k) as [num|] eqn:Hc; [|discriminate].
    destruct (num =? 0)%nat; [discriminate|].
    destruct (open_entry_ok M (ft_entries t) (ft_pls t) k oe next num RE RP He) as (M1 & E1 & RE1 & RP1 & O1). rewrite E1. simpl.
    set (e := match oe with Some e => e | None => {| fe_begin := next; fe_back := next; fe_end := next |} end) in *.
    set (nx := match oe with Some _ => next | None => (next + num)%nat end).
    assert (EQ : match oe with Some e => (e, next) | None => ({| fe_begin := next; fe_back := next; fe_end := next |}, (next + num)%nat) end = (e, nx)) by (unfold e, nx; destruct oe; reflexivity).
    rewrite EQ in H. clear EQ.
    assert (EQ : match oe with Some _ => loc next | None => loc (next + num) end = loc nx) by (unfold nx; destruct oe; reflexivity). rewrite EQ. clear EQ.
    destruct (fe_end e <? length (ft_pls t))%nat eqn:Hl; [|discriminate]. apply Nat.ltb_lt in Hl. assert (Hl' : (fe_end e < np)%nat) by (destruct RP as [<- _]; exact Hl).
    assert (K : (k < ne)%nat) by (apply nth_error_lt in Hc; lia).
    assert (Lk : (k < length (ft_entries t))%nat) by (eapply nth_error_lt; eauto).
    pose proof (in_entry k K) as IE. pose proof base_size as BS. pose proof (al_entry k) as AE.
    pose proof (proj2 RE1 k (Some e) (nth_error_set_nth_same _ _ _ Lk)) as T. simpl in T. destruct T as (T1 & T2 & T3).
    rewrite (load_holds size M1 (entry_at ptr k + 16) 8 (WPtr (loc (fe_end e)))); [|lia|apply al_add; auto; lia|lia|exact T3]. simpl.
    destruct (put_payload_ok size M1 (loc (fe_end e)) i f (in_loc _ Hl') (al_loc _)) as (M2 & E2 & P2 & O2). rewrite E2. simpl.
    destruct (store_ok size M2 (entry_at ptr k + 16) 8 (WPtr (loc (fe_end e) + sizeof_payload))) as (M3 & E3 & H3 & O3); [lia|apply al_add; auto; lia|]. rewrite E3. simpl.
    pose proof (base_loc (fe_end e)) as BL.
    assert (O3' : only M2 M3 (entry_at ptr k) 24) by (eapply only_sub; [exact O3|lia|lia]).
    pose proof (repe_pls M1 M2 _ _ _ RE1 BL O2) as RE2.
    assert (RP2 : RepP M2 (set_nth (fe_end e) (Some {| fp_mixin := i; fp_payload := ff_payload f; fp_data := f |}) (ft_pls t))).
    { destruct RP1 as [L1 R1]. split; [now rewrite length_set_nth|]. intros n x Hn. rewrite nth_set in Hn by exact Hl.
      destruct (Nat.eqb_spec n (fe_end e)) as [->|Hne].
      - injection Hn as <-. exact P2.
      - eapply pay_same; [|apply R1; exact Hn]. eapply only_same; [exact O2|]. apply loc_apart. congruence. }
    pose proof (repp_entry _ _ _ k RP2 K O3') as RP3.
    assert (RE3 : RepE M3 (set_nth k (Some {| fe_begin := fe_begin e; fe_back := fe_back e; fe_end := S (fe_end e) |}) (ft_entries t))).
    { rewrite <- (set_nth_set_nth k _ (Some e)). eapply repe_entry; eauto. simpl.
      pose proof (proj2 RE2 k (Some e) (nth_error_set_nth_same _ _ _ Lk)) as (U1 & U2 & U3).
      split; [|split].
      - eapply holds_same; [eapply only_same; [exact O3|lia]|exact U1].
      - eapply holds_same; [eapply only_same; [exact O3|lia]|exact U2].
      - rewrite loc_S. exact H3. }
    apply (IH _ _ _ M3) in H; simpl; auto.
    + destruct H as (M' & E' & A1 & A2 & A3 & A4). exists M'. split; [exact E'|]. repeat (split; [assumption|]).
      eapply only_trans; [|exact A4]. eapply only_trans; [eapply only_entry; [exact K|exact O1]|].
      eapply only_trans; [eapply only_loc; [exact Hl'|exact O2]|eapply only_entry; [exact K|exact O3']].
    + intros j e' Hj. rewrite nth_set in Hj by exact Lk. destruct (Nat.eqb_spec j k) as [->|Hne]; [|eapply BD; eauto].
      injection Hj as <-. simpl.
      assert (fe_begin e <= fe_end e)%nat by (unfold e in *; destruct oe as [e0|]; [pose proof (BD k e0 He); lia|simpl; lia]). lia.
Qed.

(** the fourth pass *)
Lemma finish_mem_entry_ok M es pls k e : RepE M es -> RepP M pls -> nth_error es k = Some (Some e) -> (fe_begin e <= fe_end e <= np)%nat ->
  match finish_entry E e pls with
  | Ok (e', pls') => exists M', finish_mem_entry size E M (entry_at ptr k) = Ok M' /\ RepE M' (set_nth k (Some e') es) /\ RepP M' pls' /\ fe_begin e' = fe_begin e /\ fe_end e' = fe_end e /\ only M M' ptr extent
  | Throw x => finish_mem_entry size E M (entry_at ptr k) = Throw x
  | Ub _ => True
  end.
Proof.
  intros RE RP Hk BD. pose proof (nth_error_lt _ _ _ Hk) as Lk. assert (K : (k < ne)%nat) by (destruct RE; lia).
  pose proof (in_entry k K) as IE. pose proof base_size as BS. pose proof (al_entry k) as AE.
  pose proof (proj2 RE k _ Hk) as (T1 & T2 & T3).
  unfold finish_entry, finish_mem_entry.
  rewrite (load_holds size M _ 8 (WPtr (loc (fe_begin e)))) by (auto; lia). simpl.
  rewrite (load_holds size M (entry_at ptr k + 16) 8 (WPtr (loc (fe_end e)))); [|lia|apply al_add; auto; lia|lia|exact T3]. simpl.
  destruct (all_some (slice (fe_begin e) (fe_end e) pls)) as [range|] eqn:Hr; [|exact I].
  apply all_some_spec in Hr. assert (Lr : length range = (fe_end e - fe_begin e)%nat).
  { rewrite <- (map_length Some range), <- Hr. apply length_slice. destruct RP as [-> _]. lia. }
  assert (Q : N.to_nat ((loc (fe_end e) - loc (fe_begin e)) / sizeof_payload) = length range).
  { rewrite Lr. unfold loc, sizeof_payload. replace (base + N.of_nat (fe_end e) * 24 - (base + N.of_nat (fe_begin e) * 24)) with (N.of_nat (fe_end e - fe_begin e) * 24) by lia.
    rewrite N.div_mul by lia. apply Nat2N.id. }
  rewrite Q.
  assert (LB : loc (fe_begin e) + N.of_nat (length range) * 24 <= size).
  { rewrite Lr. unfold loc, base. assert (N.of_nat (fe_begin e) + N.of_nat (fe_end e - fe_begin e) <= N.of_nat np) by lia. nia. }
  rewrite read_payloads_ok; [|exact LB|apply al_loc|].
  2:{ intros n x Hn. rewrite <- loc_add. apply (proj2 RP).
      assert (X : nth_error (slice (fe_begin e) (fe_end e) pls) n = Some (Some x)) by (rewrite Hr, nth_error_map, Hn; reflexivity).
      rewrite nth_error_slice in X. destruct (n <? fe_end e - fe_begin e)%nat; [exact X|discriminate]. }
  simpl. set (sorted := sort_by payload_less range).
  assert (Ls : length sorted = length range) by (apply Permutation_length, sort_by_perm).
  destruct (write_payloads_ok size sorted M (loc (fe_begin e))) as (M1 & E1 & H1 & O1); [rewrite Ls; exact LB|apply al_loc|]. rewrite E1. simpl.
  destruct sorted as [|top rest] eqn:Hs; [exact I|].
  destruct (negb (f_allow_clashes (e_feature E (ff_info (fp_data top)))) && has_clash (top :: rest)); [reflexivity|].
  destruct (store_ok size M1 (entry_at ptr k + 8) 8 (WPtr (loc (fe_begin e) + N.of_nat (top_bid_run (ff_bid (fp_data top)) rest) * sizeof_payload))) as (M2 & E2 & H2 & O2); [lia|apply al_add; auto; lia|].
  rewrite E2. exists M2. split; [reflexivity|]. pose proof (base_loc (fe_begin e)) as BL.
  pose proof (repe_pls M M1 _ _ _ RE BL O1) as RE1.
  assert (O2' : only M1 M2 (entry_at ptr k) 24) by (eapply only_sub; [exact O2|lia|lia]).
  pose proof (proj2 RE1 k _ Hk) as (U1 & U2 & U3).
  split; [|split; [|split; [reflexivity|split; [reflexivity|]]]].
  - eapply repe_entry; eauto. simpl. split; [|split].
    + eapply holds_same; [eapply only_same; [exact O2|lia]|exact U1].
    + rewrite loc_add. exact H2.
    + eapply holds_same; [eapply only_same; [exact O2|lia]|exact U3].
  - eapply repp_entry; [|exact K|exact O2']. destruct RP as [L R].
    change (map Some (top :: rest)) with (map (@Some fpayload) (top :: rest)).
    pose proof (length_put (fe_begin e) (fe_end e) (map Some (top :: rest)) pls) as LP. unfold put in LP.
    split; [rewrite LP; rewrite ?map_length; lia|].
    intros n x Hn. pose proof (nth_error_put (fe_begin e) (fe_end e) (map Some (top :: rest)) pls n) as NP. unfold put in NP. rewrite NP in Hn by (rewrite ?map_length; lia). clear NP LP.
    destruct ((fe_begin e <=? n)%nat && (n <? fe_end e)%nat) eqn:Hb.
    + apply andb_true_iff in Hb. destruct Hb as [Hb1 Hb2]. apply Nat.leb_le in Hb1. apply Nat.ltb_lt in Hb2.
      rewrite nth_error_map in Hn. destruct (nth_error (top :: rest) (n - fe_begin e)) as [y|] eqn:Hy; [|discriminate]. injection Hn as <-.
      apply H1 in Hy. rewrite <- loc_add in Hy. replace (fe_begin e + (n - fe_begin e))%nat with n in Hy by lia. exact Hy.
    + apply andb_false_iff in Hb. rewrite Nat.leb_gt, Nat.ltb_ge in Hb.
      eapply pay_same; [|apply R; exact Hn]. eapply only_same; [exact O1|]. rewrite Ls, Lr. unfold loc.
      assert (N.of_nat n + 1 <= N.of_nat (fe_begin e) \/ N.of_nat (fe_begin e) + N.of_nat (fe_end e - fe_begin e) <= N.of_nat n) by lia. nia.
  - eapply only_trans; [|eapply only_entry; [exact K|exact O2']]. eapply only_sub; [exact O1|unfold loc, base; lia|].
    rewrite Ls, Lr. unfold extent, loc, base. assert (N.of_nat (fe_begin e) + N.of_nat (fe_end e - fe_begin e) <= N.of_nat np) by lia. nia.
Qed.

Lemma set_nth_app {A} (a : list A) x y b : set_nth (length a) y (a ++ x :: b) = (a ++ [y]) ++ b.
Proof. induction a as [|z a IH]; simpl; auto. f_equal. exact IH. Qed.

Lemma finish_mem_ok : forall todo done pls M, RepE M (done ++ todo) -> RepP M pls -> bounded todo ->
  match finish_entries E todo pls with
  | Ok t => exists M', finish_mem size E ptr (seq (length done) (length todo)) M = Ok M' /\ RepE M' (done ++ ft_entries t) /\ RepP M' (ft_pls t) /\ only M M' ptr extent
  | Throw x => finish_mem size E ptr (seq (length done) (length todo)) M = Throw x
  | Ub _ => True
  end.
Proof.
  induction todo as [|oe todo IH]; intros done pls M RE RP BD; cbn [finish_entries finish_mem length seq].
  - exists M. split; [reflexivity|]. simpl. split; [exact RE|]. split; [exact RP|apply only_refl].
  - assert (Hk : nth_error (done ++ oe :: todo) (length done) = Some oe) by (rewrite nth_error_app2, Nat.sub_diag by lia; reflexivity).
    assert (BD' : bounded todo) by (intros j e' Hj; apply (BD (S j) e' Hj)).
    pose proof (nth_error_lt _ _ _ Hk) as Lk. assert (K : (length done < ne)%nat) by (destruct RE; lia).
    pose proof (in_entry (length done) K) as IE. pose proof base_size as BS. pose proof (al_entry (length done)) as AE.
    destruct oe as [e|].
    + pose proof (finish_mem_entry_ok M _ pls _ e RE RP Hk (BD O e eq_refl)) as F.
      destruct (finish_entry E e pls) as [[e' pls']|x|u]; simpl; [|rewrite F; reflexivity|exact I].
      destruct F as (M1 & E1 & RE1 & RP1 & F1 & F2 & O1). rewrite E1. simpl. rewrite set_nth_app in RE1.
      specialize (IH (done ++ [Some e']) pls' M1 RE1 RP1 BD'). rewrite app_length in IH. simpl in IH. rewrite Nat.add_1_r in IH.
      destruct (finish_entries E todo pls') as [t|x|u]; simpl; [|exact IH|exact I].
      destruct IH as (M2 & E2 & RE2 & RP2 & O2). exists M2. split; [exact E2|]. split; [now rewrite <- app_assoc in RE2|]. split; [exact RP2|].
      eapply only_trans; eauto.
    + pose proof (proj2 RE _ _ Hk) as T. simpl in T. unfold finish_mem_entry at 1 2.
      rewrite load_zeros; [|lia|auto|lia|eapply zeros_sub; [exact T|lia|lia]]. simpl.
      assert (RE1 : RepE M ((done ++ [None]) ++ todo)) by (rewrite <- app_assoc; exact RE).
      specialize (IH (done ++ [None]) pls M RE1 RP BD'). rewrite app_length in IH. simpl in IH. rewrite Nat.add_1_r in IH.
      destruct (finish_entries E todo pls) as [t|x|u]; simpl; [|exact IH|exact I].
      destruct IH as (M2 & E2 & RE2 & RP2 & O2). exists M2. split; [exact E2|]. split; [now rewrite <- app_assoc in RE2|]. split; [exact RP2|exact O2].
Qed.

End Table.
