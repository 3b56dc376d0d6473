(** Objects in any history: lifetimes, memory, back pointers, queries, counts *)
From Coq Require Import List Arith ZArith NArith Lia Bool.
From Verif Require Import Base Sv SvProofs BaseLemmas Info TypeBuild TypeQuery Domain ElemProofs TypesProofs SpecReg SpecDom HistProofs DomTheorems SpecLayout Heap HeapProofs Mutation Object SpecObj SpecMut SpecLog
  PartProofs RollProofs AllocProofs UpdProofs FinProofs PerfProofs WorldProofs ObjProofs OpProofs PlanProofs ActProofs ActProofs2 MatchProofs ActProofs3 LogProofs SpecMsg MsgProofs2 MutProofs MutProofs2 MutTheorems.
Import ListNotations.

Section OT.
Variable E : env.
Variable U : user.
Hypothesis AM : aligned_mixins E.
Notation Inv := (Inv E).

(** ** Queries *)
Lemma typed_cases s o : Inv s -> typed s -> with_type_set s o ->
  exists x r t, s_obj s o = Some x /\ o_type x = Some r /\ w_type (s_w s) r = Some t /\ (o_data x = None /\ t_mixins t = [] \/ exists b dd, whole E s o x b r t dd).
Proof.
  intros I Ty (x & Hx & Hn). destruct (the_type_ok E s o x I Ty Hx Hn) as (r & t & Hr & Ht & _). exists x, r, t. split; auto. split; auto. split; auto.
  case_eq (o_data x); [intros b Hb; right|intros Hb; left].
  - destruct (whole_of E s o x b I Hx Hb) as (r' & t' & dd & W). exists b, dd. destruct W as (A1 & A2 & A3 & A4 & A5 & A6).
    assert (r' = r) as -> by congruence. assert (t' = t) as -> by congruence. now repeat (split; auto).
  - split; auto. destruct (empty_index E s o x r t None I Ty Hx Hb Hr Ht). auto.
Qed.
Lemma type_eval s o x r t {B} (f : obj -> tref * type_rec -> M st B) : s_obj s o = Some x -> o_type x = Some r -> w_type (s_w s) r = Some t ->
  bnd (get_obj o) (fun x => bnd (the_type x) (fun rt => f x rt)) s = f x (r, t) s.
Proof. intros Ho Hr Ht. unfold bnd, get_obj, the_type, get_ty. rewrite Ho, Hr. unfold bnd. rewrite Ht. reflexivity. Qed.
Lemma at_spec s o i p : Inv s -> typed s -> with_type_set s o ->
  (get_at s o i = Ok (Some p) <-> exists m v, holds s o i m p v) /\ (get_at s o i = Ok None <-> forall m, ~ has_mixin s o i m) /\ exists r, get_at s o i = Ok r.
Proof.
  intros I Ty Ts. destruct (typed_cases s o I Ty Ts) as (x & r & t & Hx & Hr & Ht & C).
  assert (Hty : type_of s o r t) by (exists x; auto).
  assert (Hi : forall m, has_mixin s o i m <-> nth_error (t_mixins t) i = Some m).
  { intros m. split; [intros (r' & t' & A & B); destruct (type_of_fun s o r t r' t' Hty A) as [-> ->]; auto|intros B; exists r, t; auto]. }
  destruct (nth_error (t_mixins t) i) as [m|] eqn:Hm.
  - destruct C as [[_ C]|(b & dd & W)]; [rewrite C in Hm; destruct i; discriminate|]. pose proof (whole_get E s o x b r t dd i m W Hm) as Hg. rewrite Hg.
    destruct (mixin_holds E s o i m I Ty (proj2 (Hi m) eq_refl)) as (p' & v & Hh). pose proof (proj1 (proj2 Hh)) as Hg'. split; [|split].
    + split; [intros [= <-]; exists m, v; destruct (holds_whole E s o i m p' v x b r t dd W Hh) as (_ & -> & _); auto|]. intros (m' & v' & _ & A & _). congruence.
    + split; [discriminate|]. intros A. exfalso. now apply (A m), Hi.
    + eauto.
  - assert (Hg : get_at s o i = Ok None).
    { unfold get_at. rewrite (type_eval s o x r t _ Hx Hr Ht). cbv beta. cbn [fst snd]. apply nth_error_None in Hm. unfold num_mixins. apply Nat.ltb_ge in Hm. now rewrite Hm. }
    rewrite Hg. split; [|split; [|eauto]].
    + split; [discriminate|]. intros (m & v & A & _). apply Hi in A. discriminate.
    + split; auto. intros _ m A. apply Hi in A. discriminate.
Qed.
Lemma by_spec s o idx p : Inv s -> typed s -> with_type_set s o -> (forall r t i, type_of s o r t -> idx t = Some i -> i < length (t_mixins t)) ->
  (get_by s o idx = Ok (Some p) <-> exists r t i m v, type_of s o r t /\ idx t = Some i /\ holds s o i m p v) /\
  (get_by s o idx = Ok None <-> forall r t, type_of s o r t -> idx t = None) /\ exists r, get_by s o idx = Ok r.
Proof.
  intros I Ty Ts Hx. destruct (typed_cases s o I Ty Ts) as (x & r & t & Hxo & Hr & Ht & C).
  assert (Hty : type_of s o r t) by (exists x; auto).
  assert (Hev : get_by s o idx = match idx t with Some i => get_at s o i | None => Ok None end).
  { unfold get_by, get_at. rewrite !(type_eval s o x r t _ Hxo Hr Ht). cbv beta. cbn [fst snd]. destruct (idx t) as [i|] eqn:Hi; [|reflexivity]. rewrite (type_eval s o x r t _ Hxo Hr Ht). cbv beta. cbn [fst snd].
    unfold num_mixins. specialize (Hx r t i Hty Hi). apply Nat.ltb_lt in Hx. now rewrite Hx. }
  rewrite Hev. destruct (idx t) as [i|] eqn:Hi.
  - destruct (at_spec s o i p I Ty Ts) as (A1 & A2 & A3). split; [|split; auto].
    + rewrite A1. split; [intros (m & v & H); exists r, t, i, m, v; auto|]. intros (r' & t' & i' & m & v & B1 & B2 & B3). destruct (type_of_fun s o r t r' t' Hty B1) as [-> ->]. assert (i' = i) as -> by congruence. eauto.
    + rewrite A2. split; [|intros B; rewrite (B r t Hty) in Hi; discriminate]. intros B. exfalso. pose proof (Hx r t i Hty Hi) as Hl. destruct (nth_error (t_mixins t) i) as [m|] eqn:Hm; [|apply nth_error_None in Hm; lia].
      apply (B m). exists r, t. auto.
  - split; [|split; [|eauto]].
    + split; [discriminate|]. intros (r' & t' & i' & m & v & B1 & B2 & B3). destruct (type_of_fun s o r t r' t' Hty B1) as [-> ->]. congruence.
    + split; auto. intros _ r' t' B. destruct (type_of_fun s o r t r' t' Hty B) as [-> ->]. auto.
Qed.
Lemma idx_mixin s r t id i : Inv s -> w_type (s_w s) r = Some t -> (index_of t id = Some i <-> exists m, nth_error (t_mixins t) i = Some m /\ w_mid (s_w s) m = id).
Proof.
  intros I Ht. pose proof (inv_good E AM s r t I Ht) as G. split; [|intros (m & A & <-); now apply (tg_idx _ _ _ G)].
  intros H. destruct (type_cases E (s_w s) r t (iv_reach _ _ I) Ht) as [(k & -> & Et)|(T & _)].
  - exfalso. rewrite Et in H. unfold index_of in H. cbn in H. destruct id as [[|j]|]; cbn in H; discriminate.
  - destruct T as (_ & _ & _ & _ & T & _). destruct id as [j|]; [|discriminate H]. pose proof (sparse_ok_index _ _ _ j T) as A. cbn in H. destruct (nth_error (t_sparse t) j) as [[i'|]|]; try discriminate. injection H as ->. exact A.
Qed.
Lemma name_range t nm i : index_of_name E t nm = Some i -> i < length (t_mixins t).
Proof. intros H. apply (proj1 (c20_name E t nm)) in H. destruct H as (m & H & _). now apply nth_error_lt in H. Qed.

(** Every query of an object agrees with what it holds. *)
Lemma queries_agree s o : Inv s -> typed s -> with_type_set s o ->
  (forall i p, get_at s o i = Ok (Some p) <-> exists m v, holds s o i m p v) /\
  (forall i, get_at s o i = Ok None <-> forall m, ~ has_mixin s o i m) /\
  (forall id p, get s o id = Ok (Some p) <-> exists i m v, holds s o i m p v /\ w_mid (s_w s) m = id) /\
  (forall id, get s o id = Ok None <-> forall m, has_some s o m -> w_mid (s_w s) m <> id) /\
  (forall id, has s o id = Ok true <-> exists m, has_some s o m /\ w_mid (s_w s) m = id) /\
  (forall nm p, get_name E s o nm = Ok (Some p) <-> exists i m v, holds s o i m p v /\ sv_bytes (m_name (e_mixin E m)) = nm /\
     forall j m', j < i -> has_mixin s o j m' -> sv_bytes (m_name (e_mixin E m')) <> nm) /\
  (forall nm, get_name E s o nm = Ok None <-> forall m, has_some s o m -> sv_bytes (m_name (e_mixin E m)) <> nm) /\
  (is_empty s o = Ok true <-> forall m, ~ has_some s o m).
Proof.
  intros I Ty Ts. destruct (typed_cases s o I Ty Ts) as (x & r & t & Hxo & Hr & Ht & C).
  assert (Hty : type_of s o r t) by (exists x; auto).
  assert (Hi : forall i m, has_mixin s o i m <-> nth_error (t_mixins t) i = Some m).
  { intros i m. split; [intros (r' & t' & A & B); destruct (type_of_fun s o r t r' t' Hty A) as [-> ->]; auto|intros B; exists r, t; auto]. }
  assert (Ri : forall id r t i, type_of s o r t -> index_of t id = Some i -> i < length (t_mixins t)).
  { intros id r' t' i Hy Hx. apply (idx_mixin s r' t' id i I) in Hx; [|destruct Hy as (y & _ & _ & Hy); auto]. destruct Hx as (m & Hm & _). now apply nth_error_lt in Hm. }
  split; [intros i p; apply (at_spec s o i p I Ty Ts)|]. split; [intros i; apply (at_spec s o i (0, 0%N) I Ty Ts)|].
  split; [intros id p|split; [intros id|split; [intros id|split; [intros nm p|split; [intros nm|]]]]].
  - rewrite (proj1 (by_spec s o (fun t => index_of t id) p I Ty Ts (Ri id))). split.
    + intros (r' & t' & i & m & v & A & B & D). exists i, m, v. split; auto. apply (idx_mixin s r' t' id i I) in B; [|destruct A as (y & _ & _ & A); auto]. destruct B as (m' & B1 & B2).
      destruct D as (Dm & _). destruct (type_of_fun s o r t r' t' Hty A) as [-> ->]. apply Hi in Dm. assert (m' = m) by congruence. now subst m'.
    + intros (i & m & v & A & B). exists r, t, i, m, v. split; auto. split; auto. apply (idx_mixin s r t id i I Ht). exists m. split; auto. now apply Hi, (proj1 A).
  - rewrite (proj1 (proj2 (by_spec s o (fun t => index_of t id) (0, 0%N) I Ty Ts (Ri id)))). split.
    + intros H m (i & Hm) Hid. specialize (H r t Hty). assert (A : index_of t id = Some i) by (apply (idx_mixin s r t id i I Ht); exists m; split; auto; now apply Hi). congruence.
    + intros H r' t' A. destruct (type_of_fun s o r t r' t' Hty A) as [-> ->]. destruct (index_of t id) as [i|] eqn:Hx; auto. exfalso. apply (idx_mixin s r t id i I Ht) in Hx. destruct Hx as (m & A1 & A2). apply (H m); auto. exists i. now apply Hi.
  - unfold has. rewrite (type_eval s o x r t _ Hxo Hr Ht). cbv beta. cbn [fst snd ret]. split.
    + intros [= H]. apply has_id_index in H. destruct H as (i & H). apply (idx_mixin s r t id i I Ht) in H. destruct H as (m & A1 & A2). exists m. split; auto. exists i. now apply Hi.
    + intros (m & (i & Hm) & Hid). f_equal. apply has_id_index. exists i. apply (idx_mixin s r t id i I Ht). exists m. split; auto. now apply Hi.
  - rewrite (proj1 (by_spec s o (fun t => index_of_name E t nm) p I Ty Ts (fun r t i _ H => name_range t nm i H))). split.
    + intros (r' & t' & i & m & v & A & B & D). destruct (type_of_fun s o r t r' t' Hty A) as [-> ->]. apply (proj1 (c20_name E t nm)) in B. destruct B as (m' & B1 & B2 & B3). pose proof (proj1 (Hi i m) (proj1 D)) as Dm. assert (m' = m) by congruence. subst m'.
      exists i, m, v. split; auto. split; auto. intros j m' Hj Hm'. apply (B3 j m' Hj). now apply Hi.
    + intros (i & m & v & A & B & D). exists r, t, i, m, v. split; auto. split; auto. apply (proj1 (c20_name E t nm)). exists m. split; [now apply Hi, (proj1 A)|]. split; auto. intros j m' Hj Hm'. apply (D j m' Hj). now apply Hi.
  - rewrite (proj1 (proj2 (by_spec s o (fun t => index_of_name E t nm) (0, 0%N) I Ty Ts (fun r t i _ H => name_range t nm i H)))). split.
    + intros H m (i & Hm) Hn. specialize (H r t Hty). apply Hi in Hm. assert (A : type_has_name E t nm = true) by (apply (proj2 (c20_name E t nm)); exists m; split; auto; eapply nth_error_In; eauto). unfold type_has_name in A. now rewrite H in A.
    + intros H r' t' A. destruct (type_of_fun s o r t r' t' Hty A) as [-> ->]. destruct (index_of_name E t nm) as [i|] eqn:Hx; auto. exfalso. apply (proj1 (c20_name E t nm)) in Hx. destruct Hx as (m & A1 & A2 & _). apply (H m); auto. exists i. now apply Hi.
  - unfold is_empty, bnd, get_obj. rewrite Hxo. cbn. destruct C as [[Hd Hn]|(b & dd & W)].
    + rewrite Hd. split; auto. intros _ m (i & Hm). apply Hi in Hm. rewrite Hn in Hm. destruct i; discriminate.
    + destruct W as (_ & W2 & _ & _ & W5 & _). rewrite W2. split; [discriminate|]. intros H. exfalso. destruct (t_mixins t) as [|m l] eqn:Hl; [congruence|]. apply (H m). exists 0. apply Hi. reflexivity.
Qed.

(** ** object_of *)
Lemma back_pointer s o i m p v : Inv s -> typed s -> holds s o i m p v -> object_of s p = Some o.
Proof.
  intros I Ty H. destruct (mixin_whole E s o i m I Ty (proj1 H)) as (x & b & r & t & dd & W & Hm). destruct (holds_whole E s o i m p v x b r t dd W H) as (_ & -> & _).
  destruct W as (Ho & Hd & Hr & Ht & Hne & P). pose proof (inv_good E AM s r t I Ht) as G. destruct (slot_ex E _ t i G) as (m' & off & S); [now apply nth_error_lt in Hm|].
  assert (m' = m) by (destruct S; congruence). subst m'. change (object_of s (md_mixin (dd i))) with (bback (s_blk s) (md_mixin (dd i))).
  apply (part_mine_back E o (o_alloc x) t b (s_blk s) dd (full t) (full t) (full t) i m off P). split; auto. split; [now apply (full_lt t i m)|]. intros _. now apply (full_lt t i m).
Qed.
Lemma one_owner s o i m p v o' i' m' v' : Inv s -> typed s -> holds s o i m p v -> holds s o' i' m' p v' -> o' = o /\ i' = i /\ m' = m /\ v' = v.
Proof.
  intros I Ty H H'. pose proof (back_pointer s o i m p v I Ty H) as A. pose proof (back_pointer s o' i' m' p v' I Ty H') as B. assert (o' = o) as -> by congruence. split; auto.
  destruct (mixin_whole E s o i m I Ty (proj1 H)) as (x & b & r & t & dd & W & Hm). destruct (holds_whole E s o i m p v x b r t dd W H) as (_ & Hp & Hv).
  destruct (holds_whole E s o i' m' p v' x b r t dd W H') as (Hm' & Hp' & Hv').
  assert (i' = i) as -> by (eapply (whole_inj E AM s I o x b r t dd); eauto using nth_error_lt; congruence). split; auto. split; [congruence|]. rewrite Hv in Hv'. congruence.
Qed.

(** ** Lifetimes *)
Lemma instance_held s p m v : Inv s -> typed s -> instance s p = Some {| i_mixin := m; i_val := v |} -> m_destroy (e_mixin E m) = true -> exists o i, holds s o i m p v.
Proof.
  intros I Ty H Hd. assert (Hb : s_blk s (fst p) <> None) by (unfold instance in H; destruct (s_blk s (fst p)); discriminate).
  destruct (iv_own _ _ I _ Hb) as (o & Ho). exists o. pose proof Ho as Ho'. destruct Ho' as (x & b & r & t & A1 & A2 & A3 & A4 & _).
  destruct (whole_of E s o x b I A1 A2) as (r' & t' & dd & W). pose proof W as (_ & _ & W3 & W4 & _ & P). assert (r' = r) as -> by congruence. assert (t' = t) as -> by congruence.
  apply (foot_fp E s o x b r t dd (fst p) A1 A2 A3 A4 P) in Ho. destruct (pa_live _ _ _ _ _ _ _ _ _ _ P p _ Ho H Hd) as (i & Hi & ->). exists i.
  assert (Hl : i < length (t_mixins t)) by (apply (pa_range _ _ _ _ _ _ _ _ _ _ P), Hi). destruct (nth_error (t_mixins t) i) as [m'|] eqn:Hm; [|apply nth_error_None in Hm; lia].
  destruct (whole_inst E s o x b r t dd i m' I W Hm) as (v' & Hv). change (instance s (md_mixin (dd i))) with (binst (s_blk s) (md_mixin (dd i))) in H. rewrite Hv in H. injection H as -> ->.
  eapply whole_holds; eauto.
Qed.
Lemma block_owned s b : Inv s -> allocation s b <> None -> exists o, owns E s o b.
Proof. intros I H. destruct (iv_own _ _ I b) as (o & Ho); [now rewrite <- alloc_none|]. exists o. now apply (foot_owns E AM s o b I). Qed.
Lemma owns_nonempty s o b : owns E s o b -> is_nonempty s o.
Proof. intros (x & c & A & B & _). exists x. split; congruence. Qed.

Lemma no_ub tr s op : history E U tr s -> fair E s op -> ~ is_ub (snd (op_run E U op s)).
Proof. intros H F. destruct (history_inv E U AM tr s H) as [I Ty]. destruct (act_any E U AM s op I Ty F) as (s' & r & Hr & Hu & _). now rewrite Hr. Qed.
(** no call is illegal; what lives is held by an object; births and deaths *)
Lemma c33_legal ok tr s : orun E U ok tr s -> exists v, legal E (s_log s) v /\ (forall b, v_blk v b = allocation s b) /\ (forall p, v_inst v p = option_map i_mixin (instance s p)).
Proof. intros H. destruct (orun_linked E U ok tr s H) as ((v & A & B & C) & _). eauto. Qed.
Lemma c33_held tr s m p v : history E U tr s -> m_destroy (e_mixin E m) = true -> (instance s p = Some {| i_mixin := m; i_val := v |} <-> exists o i, holds s o i m p v).
Proof.
  intros H Hd. destruct (history_inv E U AM tr s H) as [I Ty]. split; [intros A; eapply instance_held; eauto|]. intros (o & i & _ & _ & A). exact A.
Qed.
Lemma c33_counts tr s m p : history E U tr s -> m_destroy (e_mixin E m) = true ->
  times (is_birth m p) (s_log s) = times (is_death m p) (s_log s) \/
  times (is_birth m p) (s_log s) = S (times (is_death m p) (s_log s)) /\ exists o i v, holds s o i m p v.
Proof.
  intros H Hd. destruct (c33_legal _ tr s H) as (v & L & Hb & Hi). pose proof (count_mixins E (s_log s) v m p Hd L) as A. unfold mixin_here in A. rewrite Hi in A.
  destruct (instance s p) as [[m' w]|] eqn:Hp; cbn in A; [|left; lia]. destruct (m' =? m) eqn:Hm; [|left; lia]. apply Nat.eqb_eq in Hm. subst m'. right. split; [lia|].
  apply (c33_held tr s m p w H Hd) in Hp. destruct Hp as (o & i & Hp). eauto.
Qed.
Lemma c33_end tr s : history E U tr s -> (forall o, ~ is_nonempty s o) -> forall m p, m_destroy (e_mixin E m) = true ->
  times (is_birth m p) (s_log s) = times (is_death m p) (s_log s).
Proof.
  intros H Hn m p Hd. destruct (c33_counts tr s m p H Hd) as [A|(_ & o & i & v & A)]; auto. exfalso. destruct (history_inv E U AM tr s H) as [I Ty].
  apply (Hn o). eapply owns_nonempty. eapply holds_owns; eauto.
Qed.

(** ** Memory *)
Lemma legal_freed l v : legal E l v -> forall l1 a b sz al l2, l = l1 ++ EvFree a b sz al :: l2 -> exists v1, legal E l1 v1 /\ v_blk v1 b = Some (a, sz, al).
Proof.
  induction 1 as [v H1 H2|l v e v' L IH St]; intros l1 a b sz al l2 Hl; [destruct l1; discriminate|].
  destruct (@exists_last _ (EvFree a b sz al :: l2)) as (l3 & e' & He); [discriminate|]. rewrite He, app_assoc in Hl. apply app_inj_tail in Hl. destruct Hl as [-> ->].
  destruct l3 as [|e0 l3]; cbn in He.
  - injection He as <- _. exists v. rewrite app_nil_r in L. split; auto. now inversion St.
  - injection He as <- He. eapply IH. reflexivity.
Qed.
Lemma legal_had l v : legal E l v -> forall a b sz al, v_blk v b = Some (a, sz, al) -> exists l1 l2, l = l1 ++ EvAlloc a b sz al :: l2 /\ times (is_free b) l2 = 0.
Proof.
  induction 1 as [v H1 H2|l v e v' L IH St]; intros a b sz al Hv; [congruence|].
  assert (Hk : v_blk v b = Some (a, sz, al) -> is_free b e = false -> exists l1 l2, l ++ [e] = l1 ++ EvAlloc a b sz al :: l2 /\ times (is_free b) l2 = 0).
  { intros A B. destruct (IH a b sz al A) as (l1 & l2 & -> & Hz). exists l1, (l2 ++ [e]). split; [now rewrite <- app_assoc|]. rewrite times_snoc, Hz, B. reflexivity. }
  inversion St as [a' c sz' al' w A1 A2 A3 A4 A5|a' c sz' al' w A1 A2 A3 A4 A5 A6|f m p src w A1 A2 A3 A4 A5 A6 A7|f m p src err w A1 A2 A3 A4 A5 A6 A7|f m p src err w A1 A2 A3 A4 A5 A6|m p err w A1 A2 A3 A4 A5 A6]; subst; try (apply Hk; [|reflexivity]; rewrite <- Hv; symmetry; auto; fail).
  - destruct (Nat.eq_dec b c) as [->|N].
    + rewrite A3 in Hv. injection Hv as -> -> ->. exists l, []. split; reflexivity.
    + apply Hk; [|reflexivity]. rewrite <- Hv. symmetry. now apply A4.
  - destruct (Nat.eq_dec b c) as [->|N]; [congruence|]. apply Hk; [rewrite <- Hv; symmetry; now apply A4|]. cbn. now apply Nat.eqb_neq, not_eq_sym.
Qed.

Lemma c34_counts tr s b : history E U tr s ->
  times (is_alloc b) (s_log s) = times (is_free b) (s_log s) /\ allocation s b = None \/
  times (is_alloc b) (s_log s) = S (times (is_free b) (s_log s)) /\ exists o, owns E s o b /\ forall o', owns E s o' b -> o' = o.
Proof.
  intros H. destruct (history_inv E U AM tr s H) as [I Ty]. destruct (c33_legal _ tr s H) as (v & L & Hb & Hi). pose proof (count_blocks E (s_log s) v b L) as A. rewrite Hb in A.
  destruct (allocation s b) as [k|] eqn:Hk; cbn in A; [right|left; split; [lia|auto]]. split; [lia|].
  destruct (block_owned s b I) as (o & Ho); [congruence|]. exists o. split; auto. intros o' Ho'. eapply owns_one; eauto.
Qed.
Lemma c34_matching ok tr s l1 a b sz al l2 : orun E U ok tr s -> s_log s = l1 ++ EvFree a b sz al :: l2 -> exists l0 l3, l1 = l0 ++ EvAlloc a b sz al :: l3 /\ times (is_free b) l3 = 0.
Proof.
  intros H Hl. destruct (c33_legal _ tr s H) as (v & L & _). destruct (legal_freed _ _ L _ _ _ _ _ _ Hl) as (v1 & L1 & B1). eapply legal_had; eauto.
Qed.
Lemma c34_end tr s : history E U tr s -> (forall o, ~ is_nonempty s o) -> forall b, times (is_alloc b) (s_log s) = times (is_free b) (s_log s) /\ allocation s b = None.
Proof. intros H Hn b. destruct (c34_counts tr s b H) as [A|(_ & o & Ho & _)]; auto. exfalso. eapply Hn, owns_nonempty; eauto. Qed.
(** the buffer of an object has the size and alignment its type says and comes from the allocator of the object; that of
    an external mixin comes from the mixin's allocator if there is one *)
Lemma c34_sizes tr s o x b r t : history E U tr s -> s_obj s o = Some x -> o_data x = Some b -> type_of s o r t ->
  allocation s b = Some (AObj (o_alloc x), t_buf_size t, t_buf_align t) /\
  forall i m d c, has_mixin s o i m -> data_slot s b i = Some d -> md_buf d = Some c ->
    external (e_mixin E m) = true /\ allocation s c = Some (match m_allocator (e_mixin E m) with Some n => AMix n | None => AObj (o_alloc x) end, m_buf_size (e_mixin E m), m_buf_off (e_mixin E m)).
Proof.
  intros H Ho Hd Hty. destruct (history_inv E U AM tr s H) as [I Ty]. destruct (whole_of E s o x b I Ho Hd) as (r' & t' & dd & W).
  destruct (type_of_fun s o r t r' t' Hty (whole_type E _ _ _ _ _ _ _ W)) as [-> ->]. destruct W as (_ & _ & W3 & W4 & W5 & P). split; [exact (pa_blk _ _ _ _ _ _ _ _ _ _ P)|].
  intros i m d c (r2 & t2 & Hy2 & Hm) Hs Hb. destruct (type_of_fun s o r t r2 t2 Hty Hy2) as [-> ->]. pose proof (inv_good E AM s r t I W4) as G.
  destruct (slot_ex E _ t i G) as (m' & off & S); [now apply nth_error_lt in Hm|]. assert (m' = m) by (destruct S; congruence). subst m'.
  change (data_slot s b i) with (bdat (s_blk s) b i) in Hs. rewrite (pa_data _ _ _ _ _ _ _ _ _ _ P), (full_lt t i m Hm) in Hs. injection Hs as <-.
  destruct (N.eq_dec off 0) as [->|N].
  - split; [now apply (tg_ext _ _ _ G i m 0%N S)|]. destruct (pa_ext _ _ _ _ _ _ _ _ _ _ P i m S (full_lt t i m Hm)) as (_ & e & _ & He & Ha & _). rewrite He in Hb. injection Hb as <-. exact Ha.
  - destruct (pa_int _ _ _ _ _ _ _ _ _ _ P i m off S (full_lt t i m Hm) N) as [He _]. rewrite He in Hb. discriminate.
Qed.

(** ** Counts and types *)
Lemma c45 tr s r t : history E U tr s -> w_type (s_w s) r = Some t ->
  exists l, NoDup l /\ length l = t_nobj t /\ forall o, In o l <-> is_nonempty s o /\ exists t', type_of s o r t'.
Proof.
  intros H Ht. destruct (history_inv E U AM tr s H) as [I Ty]. destruct (iv_cnt _ _ I r t Ht) as (l & A & B & C). exists l. split; auto. split; auto. intros o. rewrite C. split.
  - intros (x & b & A1 & A2 & A3). split; [exists x; split; congruence|]. exists t, x. auto.
  - intros ((x & A1 & A2) & t' & x' & B1 & B2 & B3). assert (x' = x) as -> by congruence. destruct (o_data x) as [b|] eqn:Hb; [|congruence]. exists x, b. auto.
Qed.
Lemma c46 tr s o x r : history E U tr s -> s_obj s o = Some x -> o_type x = Some r ->
  exists d t, has_type (s_w s) d r t /\ (forall m, In m (t_mixins t) -> w_mdom (s_w s) m = Some d) /\ (o_data x <> None <-> t_mixins t <> []).
Proof.
  intros H Ho Hr. destruct (history_inv E U AM tr s H) as [I Ty].
  destruct (typed_cases s o I Ty) as (x' & r' & t & A1 & A2 & A3 & C); [exists x; split; congruence|]. assert (x' = x) as -> by congruence. assert (r' = r) as -> by congruence.
  exists (t_dom t), t. assert (Hd : o_data x <> None <-> t_mixins t <> []).
  { destruct C as [[C1 C2]|(b & dd & _ & C2 & _ & _ & C3 & _)]; [rewrite C1, C2; intuition congruence|rewrite C2; intuition congruence]. }
  destruct (type_cases E (s_w s) r t (iv_reach _ _ I) A3) as [(k & B1 & B2)|(B1 & B2)].
  - split; [split; auto|]. split; auto. rewrite B2. intros m [].
  - split; [split; auto|]. split; auto. apply B1.
Qed.
(** Calls of domain functions leave objects alone. *)
Lemma dom_step s op s' res : Inv s -> typed s -> fair E s (ODom op) -> op_run E U (ODom op) s = (s', res) ->
  s_obj s' = s_obj s /\ s_blk s' = s_blk s /\ s_log s' = s_log s /\ types_kept s s'.
Proof.
  intros I Ty (F1 & F2 & F3) H. cbn in H. unfold bnd, on_world in H. destruct (dstep E (s_w s) op) as [w' x] eqn:Hd. cbn [fst snd] in *.
  assert (B : busy_same (s_w s) w') by (eapply dstep_busy; eauto using iv_reach; destruct op; cbn; auto).
  assert (s' = set_w s w') as -> by (destruct x; inversion H; auto). cbn. repeat (split; auto). intros o q t (y & A1 & A2 & A3). exists y. split; auto. split; auto.
  apply (proj1 B); auto. destruct (o_data y) as [b|] eqn:Hb; [left; eapply nobj_pos; eauto|right]. specialize (Ty o y A1 Hb). rewrite A2 in Ty. destruct q as [d|n]; [eauto|destruct Ty].
Qed.
End OT.
