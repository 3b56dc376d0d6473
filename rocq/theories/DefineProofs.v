(** Proofs about the definition of mixins *)
From Coq Require Import List Arith ZArith NArith Lia Bool DecimalNat.
From Verif Require Import Base Sv BaseLemmas Info TypeBuild Domain SpecReg SpecOrd RuleTheorems Define SpecDefine.
Import ListNotations.

(** ** The builder *)
Section B.
Variable grows : nat -> bool.

Definition names_ok (d : bdata) : Prop := exists n, seen_name d = Some n.
(** What can be seen, and that it stays visible *)
Record bok (d : bdata) (nm : list N) (fs : list ffm) (rs : list seen_rule) : Prop := {
  bo_name : seen_name d = Some nm;
  bo_feats : bd_features d = fs;
  bo_span : seen_features d = Some fs;
  bo_rules : seen_rules d = map Some rs
}.

Lemma string_app d d' v s : bd_stored d' = bd_stored d -> (exists t, bd_rule_names d' = bd_rule_names d ++ t) -> string_at d v = Some s -> string_at d' v = Some s.
Proof.
  intros A (t & B) H. destruct v; cbn in *; auto.
  - now rewrite A.
  - rewrite B. destruct (nth_error (bd_rule_names d) i) eqn:E; [|discriminate]. rewrite nth_error_app1; [now rewrite E|]. apply nth_error_Some. congruence.
Qed.
Lemma seen_app d d' p s : bd_stored d' = bd_stored d -> (exists t, bd_rule_names d' = bd_rule_names d ++ t) -> (exists t, bd_rule_store d' = bd_rule_store d ++ t) ->
  rule_seen d p = Some s -> rule_seen d' p = Some s.
Proof.
  intros A B (t & C) H. destruct p; cbn in *; auto. rewrite C. destruct (nth_error (bd_rule_store d) i) eqn:E; [|discriminate].
  rewrite nth_error_app1; [rewrite E|apply nth_error_Some; congruence]. destruct (string_at d (br_name b)) eqn:F; [|discriminate].
  now rewrite (string_app d d' _ _ A B F).
Qed.
Lemma seens_app d d' l rs : bd_stored d' = bd_stored d -> (exists t, bd_rule_names d' = bd_rule_names d ++ t) -> (exists t, bd_rule_store d' = bd_rule_store d ++ t) ->
  map (rule_seen d) l = map Some rs -> map (rule_seen d') l = map Some rs.
Proof.
  intros A B C. revert rs. induction l as [|p l IH]; intros [|r rs] H; cbn in *; try discriminate; auto. injection H as H1 H2.
  f_equal; auto. now apply (seen_app d).
Qed.
(** No rule name views the stored name *)
Definition own_names (d : bdata) : Prop := forall b, In b (bd_rule_store d) -> match br_name b with VStored _ => False | _ => True end.
Lemma seens_store d s' rs l : own_names d -> bd_rule_names s' = bd_rule_names d -> bd_rule_store s' = bd_rule_store d -> map (rule_seen d) l = map Some rs -> map (rule_seen s') l = map Some rs.
Proof.
  intros O A C. revert rs. induction l as [|p l IH]; intros [|r rs] H; cbn in *; try discriminate; auto. injection H as H1 H2. f_equal; auto.
  destruct p; cbn in *; auto. rewrite C. destruct (nth_error (bd_rule_store d) i) eqn:E; [|discriminate]. apply nth_error_In in E. specialize (O _ E).
  destruct (br_name b); cbn in *; auto; [destruct O|]. now rewrite A.
Qed.

Lemma first_of_or a b : value_or a (value_or b 0%Z) = first_of a b.
Proof. destruct a, b; reflexivity. Qed.
Lemma first_of_or1 a : value_or a 0%Z = first_of a None.
Proof. destruct a; reflexivity. Qed.

Definition told_rule (nm : list N) (k : nat) (c : bcall) : list seen_rule := rules_told nm k [c].
Definition told_name (nm : list N) (c : bcall) : list N := last_name nm [c].

Lemma step_ok d nm fs rs c : bok d nm fs rs -> own_names d ->
  exists d', b_call grows d c = Some d' /\ bok d' (told_name nm c) (fs ++ features_told [c]) (rs ++ told_rule nm (length rs) c) /\ own_names d' /\
    bd_dep d' = (match dep_told c with Some x => x | None => bd_dep d end) /\
    bd_alloc d' = (match c with BAllocator a => Some a | _ => bd_alloc d end).
Proof.
  intros [A B C D] O.
  assert (L : length (bd_rules d) = length rs). { rewrite <- (map_length (rule_seen d)). fold (seen_rules d). rewrite D. apply map_length. }
  assert (NE : forall (X : Type) (l : list X) x, nth_error (l ++ [x]) (length l) = Some x) by (intros; rewrite nth_error_app2, Nat.sub_diag; auto).
  assert (OA : forall b, match br_name b with VStored _ => False | _ => True end -> forall x, In x (bd_rule_store d ++ [b]) -> match br_name x with VStored _ => False | _ => True end).
  { intros b Hb x Hx. apply in_app_iff in Hx as [Hx|[<-|[]]]; [now apply O|exact Hb]. }
  destruct c; cbn [b_call told_name last_name told_rule rules_told features_told flat_map dep_told app]; rewrite ?List.app_nil_r.
  - eexists. split; [reflexivity|]. split; [split; rewrite ?List.app_nil_r; first [exact A|exact B|exact C|exact D|reflexivity|idtac]|split; [try exact O|split; try reflexivity]].
  - eexists. split; [reflexivity|]. split; [split; rewrite ?List.app_nil_r; first [exact A|exact B|exact C|exact D|reflexivity|idtac]|split; [try exact O|split; try reflexivity]].
    + unfold seen_name; cbn. now rewrite Nat.eqb_refl.
    + unfold seen_rules. cbn. eapply seens_store; eauto.
  - eexists. split; [reflexivity|]. split; [split; rewrite ?List.app_nil_r; first [exact A|exact B|exact C|exact D|reflexivity|idtac]|split; [try exact O|split; try reflexivity]].
  - eexists. split; [reflexivity|]. split; [split; rewrite ?List.app_nil_r; first [exact A|exact B|exact C|exact D|reflexivity|idtac]|split; [try exact O|split; try reflexivity]].
  - eexists. split; [reflexivity|]. split; [split; rewrite ?List.app_nil_r; first [exact A|exact B|exact C|exact D|reflexivity|idtac]|split; [try exact O|split; try reflexivity]]; unfold b_implements; cbn.
    + now rewrite B, !first_of_or.
    + unfold seen_features. cbn. rewrite Nat.eqb_refl, Nat.leb_refl, firstn_all, B, !first_of_or. reflexivity.
  - eexists. split; [reflexivity|]. split; [split; rewrite ?List.app_nil_r; first [exact A|exact B|exact C|exact D|reflexivity|idtac]|split; [try exact O|split; try reflexivity]]. unfold seen_rules. cbn. rewrite !map_app. cbn. f_equal.
    eapply (seens_app d); eauto; [exists []|exists []]; cbn; now rewrite List.app_nil_r.
  - eexists. split; [reflexivity|]. split; [split; rewrite ?List.app_nil_r; first [exact A|exact B|exact C|exact D|reflexivity|idtac]|split; [try exact O|split; try reflexivity]].
    + unfold seen_name. eapply string_app; [| |exact A]; cbn; eauto.
    + unfold seen_rules. cbn. rewrite !map_app. f_equal; [eapply (seens_app d); eauto; cbn; eauto|]. cbn. rewrite NE. cbn. rewrite NE. cbn. now rewrite first_of_or1.
    + unfold own_names. cbn. apply OA. exact I.
  - unfold b_rule_auto. fold (seen_name d). rewrite A. eexists. split; [reflexivity|]. split; [split; rewrite ?List.app_nil_r; first [exact A|exact B|exact C|exact D|reflexivity|idtac]|split; [try exact O|split; try reflexivity]].
    + unfold seen_name. eapply string_app; [| |exact A]; cbn; eauto.
    + unfold seen_rules. cbn. rewrite !map_app. f_equal; [eapply (seens_app d); eauto; cbn; eauto|]. cbn. rewrite NE. cbn. rewrite NE. cbn. now rewrite first_of_or1, L.
    + unfold own_names. cbn. apply OA. exact I.
  - unfold b_on_mutation. fold (seen_name d). rewrite A. eexists. split; [reflexivity|]. split; [split; rewrite ?List.app_nil_r; first [exact A|exact B|exact C|exact D|reflexivity|idtac]|split; [try exact O|split; try reflexivity]].
    + unfold seen_name. eapply string_app; [| |exact A]; cbn; eauto.
    + unfold seen_rules. cbn [bd_rules]. rewrite !map_app. f_equal; [eapply (seens_app d); eauto; cbn; eauto|]. cbn. rewrite NE. cbn. rewrite NE. cbn. now rewrite first_of_or1, L.
    + unfold own_names. cbn. apply OA. exact I.
    + cbn; destruct makes_dep; reflexivity.
Qed.

Lemma told_len nm k c : length (told_rule nm k c) + k = match c with BRule _ | BRuleNamed _ _ _ | BRuleAuto _ _ | BOnMutation _ _ _ _ => S k | _ => k end.
Proof. destruct c; reflexivity. Qed.
Lemma rules_told_cons nm k c l : rules_told nm k (c :: l) = told_rule nm k c ++ rules_told (told_name nm c) (length (told_rule nm k c) + k) l.
Proof. destruct c; reflexivity. Qed.
Lemma last_name_cons nm c l : last_name nm (c :: l) = last_name (told_name nm c) l.
Proof. destruct c; reflexivity. Qed.

Lemma calls_ok l : forall d nm fs rs, bok d nm fs rs -> own_names d ->
  exists d', b_calls grows d l = Some d' /\ bok d' (last_name nm l) (fs ++ features_told l) (rs ++ rules_told nm (length rs) l) /\
    bd_dep d' = fold_left (fun b c => match dep_told c with Some x => x | None => b end) l (bd_dep d) /\
    bd_alloc d' = fold_left (fun b c => match c with BAllocator a => Some a | _ => b end) l (bd_alloc d).
Proof.
  induction l as [|c l IH]; intros d nm fs rs H O.
  - exists d. cbn. rewrite !List.app_nil_r. auto.
  - destruct (step_ok d nm fs rs c H O) as (d1 & A & B & C & D & F). destruct (IH d1 _ _ _ B C) as (d2 & A2 & B2 & D2 & F2).
    exists d2. cbn [b_calls]. rewrite A. split; auto. rewrite last_name_cons, rules_told_cons. split.
    + unfold features_told in *. cbn [flat_map] in *. rewrite List.app_nil_r in B2. rewrite app_length, Nat.add_comm in B2. rewrite !app_assoc. exact B2.
    + cbn [fold_left]. rewrite <- D, <- F. auto.
Qed.

Lemma c67 name l : exists d, built grows name l = Some d /\ seen_name d = Some (last_name name l) /\ seen_features d = Some (features_told l) /\
  seen_rules d = map Some (rules_told name 0 l) /\ bd_dep d = last_dep l /\ bd_alloc d = last_allocator l.
Proof.
  destruct (calls_ok l (b_start name) name [] []) as (d & A & [B C D F] & G & H).
  - split; reflexivity.
  - intros b [].
  - exists d. auto 10.
Qed.
End B.

(** Generated names differ. *)
Definition digit (n : N) : Prop := (48 <= n <= 57)%N.
Lemma uint_digits u : Forall digit (uint_chars u).
Proof. induction u; cbn; constructor; auto; unfold digit; lia. Qed.
Lemma uint_inj u : forall v, uint_chars u = uint_chars v -> u = v.
Proof. induction u; intros v H; destruct v; cbn in H; try discriminate H; try reflexivity; injection H as H; f_equal; auto. Qed.
Lemma to_string_inj a b : to_string a = to_string b -> a = b.
Proof. intros H. apply uint_inj in H. apply (f_equal Nat.of_uint) in H. now rewrite !Unsigned.of_to in H. Qed.
Lemma to_string_digits a : Forall digit (to_string a).
Proof. apply uint_digits. Qed.
Lemma to_string_nonempty a : to_string a <> [].
Proof. unfold to_string. intros H. assert (Nat.to_uint a = Decimal.Nil) by (apply uint_inj; auto). apply (f_equal Nat.of_uint) in H0. rewrite Unsigned.of_to in H0. subst. discriminate. Qed.
(** Two lists that end in a separator followed by parts without it *)
Lemma split_last (sep : N) a b x y : ~ In sep x -> ~ In sep y -> a ++ sep :: x = b ++ sep :: y -> x = y.
Proof.
  revert b. induction a as [|c a IH]; intros [|e b] Hx Hy H; cbn in H.
  - now injection H.
  - injection H as -> H. exfalso. apply Hx. rewrite H. apply in_or_app. right. now left.
  - injection H as -> H. exfalso. apply Hy. rewrite <- H. apply in_or_app. right. now left.
  - injection H as -> H. eapply IH; eauto.
Qed.
Lemma digits_no sep l : Forall digit l -> ~ digit sep -> ~ In sep l.
Proof. intros H N I. rewrite Forall_forall in H. auto. Qed.

Definition gen_name (k : nat) (s : list N) : Prop :=
  (exists a, s = a ++ 32%N :: to_string k) \/ (exists a, s = (a ++ 60%N :: to_string k) ++ [62%N]).
Lemma gen_name_inj i j s : gen_name i s -> gen_name j s -> i = j.
Proof.
  intros [(a & A)|(a & A)] [(b & B)|(b & B)]; subst; apply to_string_inj.
  - eapply (split_last 32%N); eauto; apply digits_no; try apply to_string_digits; unfold digit; lia.
  - exfalso. destruct (exists_last (to_string_nonempty i)) as (x & c & X). rewrite X in B. change (a ++ 32%N :: x ++ [c] = (b ++ 60%N :: to_string j) ++ [62%N]) in B.
    rewrite app_comm_cons, app_assoc in B. apply app_inj_tail in B as [_ B]. subst c. pose proof (to_string_digits i) as D. rewrite X in D. apply Forall_app in D as [_ D]. inversion D; subst. unfold digit in *. lia.
  - exfalso. destruct (exists_last (to_string_nonempty j)) as (x & c & X). rewrite X in B. symmetry in B. change (b ++ 32%N :: x ++ [c] = (a ++ 60%N :: to_string i) ++ [62%N]) in B.
    rewrite app_comm_cons, app_assoc in B. apply app_inj_tail in B as [_ B]. subst c. pose proof (to_string_digits j) as D. rewrite X in D. apply Forall_app in D as [_ D]. inversion D; subst. unfold digit in *. lia.
  - apply app_inj_tail in B as [B _]. eapply (split_last 60%N); eauto; apply digits_no; try apply to_string_digits; unfold digit; lia.
Qed.

Lemma told_gen l : names_generated l -> forall nm k i r, nth_error (rules_told nm k l) i = Some r -> exists n, rule_name_of r = Some n /\ gen_name (k + i) n.
Proof.
  intros G. induction l as [|c l IH]; intros nm k i r H; [destruct i; discriminate|]. assert (G2 : names_generated l) by (intros x Hx; apply G; now right).
  specialize (IH G2). pose proof (G c (or_introl eq_refl)) as Gc. rewrite rules_told_cons in H. destruct c; cbn in H; try (destruct Gc; fail); eauto.
  - destruct i; cbn in H.
    + injection H as <-. exists (nm ++ rule_infix ++ to_string k). split; auto. left. exists (nm ++ [32; 114; 117; 108; 101]%N). rewrite Nat.add_0_r. now rewrite <- app_assoc.
    + replace (k + S i) with (S k + i) by lia. eauto.
  - destruct i; cbn in H.
    + injection H as <-. eexists. split; [reflexivity|]. right. exists (nm ++ [32%N] ++ rule_name). rewrite Nat.add_0_r. rewrite <- !app_assoc. reflexivity.
    + replace (k + S i) with (S k + i) by lia. eauto.
Qed.

Lemma c67_names name l i j r1 r2 : names_generated l -> nth_error (rules_told name 0 l) i = Some r1 -> nth_error (rules_told name 0 l) j = Some r2 ->
  rule_name_of r1 = rule_name_of r2 -> i = j.
Proof.
  intros G A B H. destruct (told_gen l G _ _ _ _ A) as (n & N1 & G1). destruct (told_gen l G _ _ _ _ B) as (m & M1 & G2).
  rewrite N1, M1 in H. injection H as ->. now apply (gen_name_inj i j m).
Qed.

(** Up to ten generated names are in the order of the calls. *)
Lemma lex_app p a b : lex_lt a b -> lex_lt (p ++ a) (p ++ b).
Proof. intros H. induction p; cbn; auto. now constructor. Qed.
Lemma to_string_small k : k < 10 -> to_string k = [(48 + N.of_nat k)%N].
Proof. intros H. do 10 (destruct k as [|k]; [reflexivity|]). lia. Qed.
Lemma told_auto l : auto_named l -> forall nm k i r, nth_error (rules_told nm k l) i = Some r -> rule_name_of r = Some (nm ++ rule_infix ++ to_string (k + i)).
Proof.
  intros G. induction l as [|c l IH]; intros nm k i r H; [destruct i; discriminate|]. assert (G2 : auto_named l) by (intros x Hx; apply G; now right).
  specialize (IH G2). pose proof (G c (or_introl eq_refl)) as Gc. rewrite rules_told_cons in H. destruct c; cbn in H; try (destruct Gc; fail); eauto.
  destruct i; cbn in H.
  - injection H as <-. cbn. now rewrite Nat.add_0_r.
  - replace (k + S i) with (S k + i) by lia. eauto.
Qed.
Lemma c67_order name l i j r1 r2 n1 n2 : auto_named l -> nth_error (rules_told name 0 l) i = Some r1 -> nth_error (rules_told name 0 l) j = Some r2 ->
  i < j -> j < 10 -> rule_name_of r1 = Some n1 -> rule_name_of r2 = Some n2 -> lex_lt n1 n2.
Proof.
  intros G A B H J N1 N2. rewrite (told_auto l G _ _ _ _ A) in N1. rewrite (told_auto l G _ _ _ _ B) in N2. injection N1 as <-. injection N2 as <-.
  apply lex_app. apply (lex_app rule_infix). cbn [Nat.add]. rewrite !to_string_small by lia. constructor. lia.
Qed.
