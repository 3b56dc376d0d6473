(** Messages whose functions call the library *)
From Coq Require Import List Arith ZArith NArith Lia Bool Permutation Sorted.
From Verif Require Import Base Sv BaseLemmas Registry Rules Info TypeBuild TypeQuery Msg MixinInfo Domain SpecReg SpecDom SpecOrd SpecLayout SpecList SpecMsg HistProofs TypesProofs FtableProofs DomTheorems MsgProofs MsgProofs2 MsgProofs3
  Heap Mutation Object ObjMsg Reenter SpecObj SpecMut SpecAct SpecSend SpecRe WorldSteps WorldProofs ObjProofs ActProofs MutProofs MutProofs2 ActProofs3 ObjTheorems ObjTheorems2 ObjTheorems5 ObjTheorems10 ExObj SendProofs.
Import ListNotations.

(** ** Types do not change, and their references are not used again *)
Record later (w w' : world) : Prop := {
  lt_next : w_next w <= w_next w';
  lt_type : forall r t t', w_type w r = Some t -> w_type w' r = Some t' -> exists n, t' = set_nobj t n;
  lt_gone : forall k, k < w_next w -> w_type w (TReg k) = None -> w_type w' (TReg k) = None
}.
Lemma later_refl w : later w w.
Proof. split; auto. intros r t t' H1 H2. exists (t_nobj t). assert (t' = t) as -> by congruence. now destruct t. Qed.
Lemma later_sub w w' : w_next w' = w_next w -> (forall r t', w_type w' r = Some t' -> exists t n, w_type w r = Some t /\ t' = set_nobj t n) -> later w w'.
Proof.
  intros Hn H. split; [lia| |].
  - intros r t t' H1 H2. destruct (H r t' H2) as (t1 & n & H3 & ->). assert (t1 = t) as -> by congruence. now exists n.
  - intros k _ Hk. destruct (w_type w' (TReg k)) as [t'|] eqn:Ht; auto. destruct (H _ _ Ht) as (t & n & H3 & _). congruence.
Qed.
Lemma later_same w w' : w_next w' = w_next w -> w_type w' = w_type w -> later w w'.
Proof. intros Hn H. apply later_sub; auto. rewrite H. intros r t' Ht. exists t', (t_nobj t'). split; auto. now destruct t'. Qed.
Lemma later_dead w w' dead : w_next w' = w_next w -> w_type w' = free_types (w_type w) dead -> later w w'.
Proof. intros Hn H. apply later_sub; auto. rewrite H. intros r t' Ht. apply free_types_some in Ht. exists t', (t_nobj t'). split; auto. now destruct t'. Qed.
Lemma later_nobj w r t n : w_type w r = Some t -> later w (with_type w r (set_nobj t n)).
Proof.
  intros Ht. apply later_sub; auto. intros q t' H. cbn in H. unfold tupd in H. destruct (tref_eqb_spec q r) as [->|]; [injection H as <-; eauto|]. exists t', (t_nobj t'). split; auto. now destruct t'.
Qed.
Lemma later_trans E a b c : reachable E a -> reachable E b -> later a b -> later b c -> later a c.
Proof.
  intros Ra Rb [A1 A2 A3] [B1 B2 B3]. split; [lia| |].
  - intros r t t' H1 H2. destruct (w_type b r) as [t1|] eqn:Hb.
    + destruct (A2 r t t1 H1 Hb) as (n & ->). destruct (B2 r _ t' Hb H2) as (n' & ->). exists n'. reflexivity.
    + exfalso. destruct r as [d|k].
      * destruct (winv_reachable _ _ Rb) as [_ T]. destruct (ti_empty _ _ T d) as (n & Hn). congruence.
      * pose proof (bounded_reach E a Ra) as Hba. assert (Hk : k < w_next a). { destruct (Nat.lt_ge_cases k (w_next a)); auto. rewrite (Hba k H) in H1. discriminate. }
        rewrite (B3 k) in H2; [discriminate|lia|auto].
  - intros k Hk Hn. apply B3; [lia|]. apply A3; auto.
Qed.
Lemma later_get_type E aok w d dm q : reachable E w -> later w (fst (get_type_mut E aok w d dm q)).
Proof.
  intros R. unfold get_type_mut. destruct (negb (dm =? d)); [apply later_refl|].
  destruct (lookup_type E w d q) as [[t|oq ms [t|]]| |]; try apply later_refl; [now apply later_same|].
  destruct (build_type E _ _ _ aok d ms) as [t| |]; try apply later_refl. unfold insert_type. destruct (find_type w (t_mixins t) _); [now apply later_same|]. cbn.
  pose proof (bounded_reach E w R) as Hb. split; cbn; [lia| |].
  - intros r t1 t' H1 H2. unfold tupd in H2. destruct (tref_eqb_spec r (TReg (w_next w))) as [->|]; [rewrite (Hb (w_next w)) in H1; [discriminate|lia]|]. assert (t' = t1) as -> by congruence. exists (t_nobj t1). now destruct t1.
  - intros k Hk Hn. unfold tupd. destruct (tref_eqb_spec (TReg k) (TReg (w_next w))) as [[= ->]|]; [lia|auto].
Qed.
Lemma later_features E w d l : w_type (fst (register_features_of E w d l)) = w_type w /\ w_next (fst (register_features_of E w d l)) = w_next w.
Proof.
  revert w. induction l as [|f l IH]; intros w; cbn [register_features_of]; auto. destruct (w_fid w (ff_info f)).
  - destruct (nth_error _ _) as [[q|]|]; auto. destruct (q =? _); auto.
  - unfold register_feature. destruct (basic_register _ _ _ _ _) as [[sp id]| |]; auto. destruct (IH {| w_mid := w_mid w; w_mdom := w_mdom w; w_fid := upd (w_fid w) (ff_info f) (Some id); w_dom := upd (w_dom w) d (with_features (w_dom w d) sp); w_type := w_type w; w_next := w_next w |}) as [A B]. split; [exact A|exact B].
Qed.
Lemma later_step E w op w' r : reachable E w -> dstep E w op = (w', r) -> later w w'.
Proof.
  intros R H. destruct op; cbn [dstep] in H; unfold forget, retty in H; injection H as <- _.
  - unfold register_feature. repeat match goal with |- context [match ?x with _ => _ end] => destruct x end; cbn; solve [apply later_refl|now apply later_same].
  - unfold unregister_feature. repeat match goal with |- context [match ?x with _ => _ end] => destruct x end; cbn; solve [apply later_refl|now apply later_same].
  - unfold register_mixin. destruct (match w_mdom w m with Some _ => _ | None => _ end); [apply later_refl|]. destruct (later_features E w d (m_features (e_mixin E m))) as [A B].
    destruct (register_features_of _ _ _ _) as [w1 [a|e|u]]; cbn [fst snd] in *; [destruct (basic_register _ _ _ _ _) as [[sp id]| |]|..]; cbn; now apply later_same.
  - unfold unregister_mixin. destruct (purge_types w d m) as [w1|e|u] eqn:Hp; try apply later_refl. unfold purge_types in Hp. destruct (existsb _ (d_queries (w_dom w d))); [discriminate|]. destruct (existsb _ (filter _ _)); [discriminate|].
    injection Hp as <-. unfold unregister_mixin_elem. destruct (basic_unregister _ _ _); cbn; eapply later_dead; reflexivity.
  - unfold register_type_class. destruct (register_tc _ _ _); cbn; solve [apply later_refl|now apply later_same].
  - now apply later_same.
  - unfold add_rule. destruct (r_apply _); [|apply later_refl]. destruct (rules_incr _ _ _). now apply later_same.
  - unfold remove_rule. destruct (rules_decr _ _ _) as [[rules lastr]| |]; [now apply later_same|apply later_refl|apply later_refl].
  - unfold get_type. destruct (find_query _ _); [apply later_refl|now apply later_get_type].
  - now apply later_get_type.
  - unfold gc. destruct (existsb _ _); [apply later_refl|]. cbn. eapply later_dead; reflexivity.
  - unfold incr_nobj. destruct (w_type w r0) eqn:Ht; [now apply later_nobj|apply later_refl].
  - unfold decr_nobj. destruct (w_type w r0) as [t|] eqn:Ht; [|apply later_refl]. destruct (t_nobj t); [apply later_refl|now apply later_nobj].
Qed.
Lemma later_run E w tr w' : run E w tr w' -> reachable E w -> later w w' /\ reachable E w'.
Proof.
  induction 1 as [w|w tr w1 o r w2 Hr IH Hs Hu]; intros R; [split; [apply later_refl|auto]|]. destruct (IH R) as [A B]. split; [eapply later_trans; eauto; eapply later_step; eauto|].
  eapply (reach_step E w1 o w2 r); eauto.
Qed.

Section Re.
Variable E : env.
Variable U : user.
Hypothesis AM : aligned_mixins E.
Variable accepts : nat -> mptr -> bool.
Hypothesis FIT : payloads_fit E accepts.
Hypothesis LO : listed_once E.
Variable body : nat -> mptr -> addr -> st -> prog.
Variable dbody : nat -> nat -> st -> prog.
Notation go := (go E U accepts body dbody).
Notation each := (each accepts body dbody).
Notation sending := (sending E).

Lemma later_op s op s' r : reachable E (s_w s) -> op_run E U op s = (s', r) -> ~ is_ub r -> later (s_w s) (s_w s').
Proof.
  intros R Hr Hu. destruct (match op with ODom d => true | _ => false end) eqn:Hd.
  - destruct op; try discriminate. cbn in Hr. unfold bnd, on_world in Hr. destruct (dstep E (s_w s) op) as [w' x] eqn:Hs. cbn [fst snd] in Hr.
    assert (Hw : s_w s' = w') by (destruct x; injection Hr as <- <-; reflexivity). rewrite Hw. eapply later_step; eauto.
  - assert (Hn : match op with ODom _ => False | _ => True end) by (destruct op; auto; discriminate).
    destruct (k_op E U op Hn s s' r Hr Hu) as (tr' & Hrun & Hin). exact (proj1 (later_run E _ _ _ Hrun R)).
Qed.
Lemma kept_inv tr s : kept_history E U tr s -> Inv E s /\ typed s /\ reachable E (s_w s).
Proof. intros H. destruct (history_inv E U AM tr s (kept_is_history _ _ _ _ H)) as [I Ty]. split; auto. split; auto. exact (iv_reach E s I). Qed.

(** ** The mixins of functions *)
Lemma reads s o i m p v : holds s o i m p v -> exists x, get_obj o s = (s, Ok x) /\ data_at x i s = (s, Ok p) /\ inst_at p s = (s, Ok {| i_mixin := m; i_val := v |}).
Proof.
  intros H. apply holds_iff in H. destruct H as (y & b & d & A1 & A2 & _ & A4 & A5 & A6). exists y. split; [unfold get_obj; now rewrite A1|]. split.
  - unfold data_at. rewrite A2. unfold bnd at 1. unfold read_data. unfold bnd, get_blk. unfold data_slot in A4. destruct (s_blk s b) as [k|]; [|discriminate]. rewrite A4. unfold ret. now rewrite A5.
  - unfold inst_at, bnd, get_blk. unfold instance in A6. destruct (s_blk s (fst p)) as [k|]; [|discriminate]. rewrite A6. reflexivity.
Qed.
Lemma mixin_of s o i k m p v : holds s o i m p v -> accepts k m = true -> the_mixin accepts o i k s = Ok (m, p).
Proof. intros H Ha. destruct (reads _ _ _ _ _ _ H) as (x & A & B & C). unfold the_mixin, bnd. rewrite A, B, C. cbn [ret i_mixin fst]. now rewrite Ha. Qed.
Lemma self_is_use s o i m p v j : holds s o i m p v -> update U j m p s = op_run E U (OUse o i j) s.
Proof.
  intros H. destruct (reads _ _ _ _ _ _ H) as (x & A & B & _). apply holds_iff in H. destruct H as (y & b & d & A1 & _ & (r & t & (y' & B1 & B2 & B3) & Hm) & _). assert (y' = y) as -> by congruence.
  assert (x = y) as -> by (unfold get_obj in A; rewrite A1 in A; congruence). cbn [op_run]. unfold use_mixin. unfold bnd at 1. rewrite A. unfold bnd at 1.
  assert (Ht : the_type y s = (s, Ok (r, t))) by (unfold the_type; rewrite B2; unfold bnd, get_ty; now rewrite B3). rewrite Ht. cbn [snd]. rewrite Hm. unfold bnd. now rewrite B.
Qed.

(** ** Which functions a message calls *)
Definition impl_ok (ms : list mptr) (x : exec) : Prop :=
  match x with ExecDefault _ => True | ExecImpl i k => exists m y, nth_error ms i = Some m /\ In y (m_features (e_mixin E m)) /\ ff_payload y = k end.
Lemma impls_ok t f x : In x (impls E (t_mixins t) f) -> impl_ok (t_mixins t) (exec_of x).
Proof. intros H. destruct (impls_listed E t f x H) as [(m & A & B) _]. exists m, (snd x). auto. Qed.
Lemma map_ok t f xs : (forall x, In x xs -> In x (impls E (t_mixins t) f)) -> forall x, In x (map exec_of xs) -> impl_ok (t_mixins t) x.
Proof. intros H x Hx. apply in_map_iff in Hx. destruct Hx as (y & <- & Hy). apply (impls_ok t f). auto. Qed.
Lemma sending_type mc o f s r t : type_of s o r t -> sending mc o f s = bind (if mc then bind (call_multicast E (w_fid (s_w s)) t f) (fun y => Ok (fst y)) else bind (call_unicast E (w_fid (s_w s)) t f) (fun y => Ok [y])) (fun l => Ok (r, l)).
Proof. intros HT. unfold Reenter.sending. assert (K : (let* x := get_obj o in the_type x) s = (s, Ok (r, t))) by (destruct HT as (x & A & B & C); unfold bnd, get_obj; rewrite A; unfold the_type; rewrite B; unfold bnd, get_ty; now rewrite C). now rewrite K. Qed.
Lemma sending_ok tr s mc o f : kept_history E U tr s -> can_send s o f ->
  match sending mc o f s with Ok (r, l) => exists t, type_of s o r t /\ forall x, In x l -> impl_ok (t_mixins t) x | Throw _ => True | Ub _ => False end.
Proof.
  intros H (r & t & HT & Hf). destruct (kept_inv _ _ H) as (I & Ty & R). destruct (kept_world E U _ _ H) as (dtr & Hd). pose proof (type_has E s o r t R HT) as Hh. rewrite (sending_type mc o f s r t HT).
  destruct (ftable_at t (w_fid (s_w s) f)) as [fe|] eqn:Hft.
  - assert (Hin : feature_in (s_w s) (t_dom t) f) by (destruct Hf as [Hf|Hf]; auto; rewrite Hf in Hft; discriminate).
    assert (Hne : impls E (t_mixins t) f <> []). { destruct (finv_run E _ _ Hd) as [Hrun HF]. destruct (table_spec E (s_w s) _ r t f (winv_run _ _ _ Hrun) HF Hh Hin) as [[_ K]|[K _]]; congruence. }
    destruct mc.
    + destruct (c25 E dtr _ _ r t f Hd Hh Hin Hne) as (xs & lst & Hx & Hp & _). rewrite Hx. cbn [bind fst]. exists t. split; auto. apply (map_ok t f). intros x Hx2. apply (Permutation_in _ Hp) in Hx2. apply filter_In in Hx2. tauto.
    + destruct (c24 E dtr _ _ r t f Hd Hh Hin Hne) as (x & Hx & Hi & _). rewrite Hx. cbn [bind]. exists t. split; auto. intros y [<-|[]]. eapply impls_ok; eauto.
  - unfold call_multicast, call_unicast. rewrite Hft. unfold try_default. destruct (f_default (e_feature E f)) as [p|]; destruct mc; cbn [bind]; auto; exists t; split; auto; intros y [<-|[]]; exact Logic.I.
Qed.
Lemma nexting_type n m p f s o i v r t : Inv E s -> typed s -> holds s o i m p v -> type_of s o r t -> nexting n m p f s =
  bind (match n with NImpl => bind (call_next_impl (w_fid (s_w s)) (w_mid (s_w s)) t f m) (fun y => Ok [y]) | NSet => bind (call_next_bidder_set (w_fid (s_w s)) (w_mid (s_w s)) t f m) (fun y => Ok (fst y))
    | NTop => bind (call_next_bidder_top (w_fid (s_w s)) (w_mid (s_w s)) t f m) (fun y => Ok [y]) end) (fun l => Ok (o, r, l)).
Proof. intros I Ty Hh HT. unfold nexting. rewrite (start_next E AM s o i m p v r t (fun o rt => ret (o, rt)) I Ty HT Hh). reflexivity. Qed.
Lemma top_none_set fid mid t f m : find_next_bidder_set fid mid t f m = Ok [] -> call_next_bidder_top fid mid t f m = Throw ENotImplemented.
Proof. intros H. unfold call_next_bidder_top. now rewrite H. Qed.
Lemma nexting_ok tr s n m p f : kept_history E U tr s -> can_next s m p f ->
  match nexting n m p f s with Ok (o, r, l) => exists t, type_of s o r t /\ forall x, In x l -> impl_ok (t_mixins t) x | Throw _ => True | Ub _ => False end.
Proof.
  intros H (o & i & v & r & t & Hh & HT & Hf). destruct (kept_inv _ _ H) as (I & Ty & R). destruct (kept_world E U _ _ H) as (dtr & Hd). pose proof (type_has E s o r t R HT) as HH.
  rewrite (nexting_type n m p f s o i v r t I Ty Hh HT). pose proof (holds_index_of s o i m p v r t HT Hh) as Hm.
  assert (Hnf : not_foreign (s_w s) (t_dom t) m). { left. destruct (finv_run E _ _ Hd) as [Hrun HF]. exact (type_mixins E _ _ _ _ (winv_run _ _ _ Hrun) HH m (nth_error_In _ _ Hm)). }
  destruct (c27 E dtr _ _ r t f LO Hd HH Hf) as (l & Hp & _ & _ & Hn & Hno). destruct (c28 E dtr _ _ r t f m LO Hd HH Hf Hnf) as [Hc Hcno].
  destruct (find (fun x => ff_info x =? f) (m_features (e_mixin E m))) as [x|] eqn:Hx.
  - apply find_some in Hx. destruct Hx as [Hx Hfx]. apply Nat.eqb_eq in Hfx. assert (Hi : In (i, x) (impls E (t_mixins t) f)) by (apply impls_in; exists m; auto).
    destruct n.
    + destruct (In_nth_error l (i, x) (Permutation_in _ (Permutation_sym Hp) Hi)) as (k & Hk). destruct (Hn k (i, x) m Hk Hm) as (_ & _ & H3). rewrite H3. destruct (nth_error l (S k)) as [y|] eqn:Hy; cbn [bind]; auto.
      exists t. split; auto. intros z [<-|[]]. apply (impls_ok t f). exact (Permutation_in _ Hp (nth_error_In _ _ Hy)).
    + destruct (Hc i x Hm Hi) as (l' & _ & Hp' & _ & H3 & H4). destruct l' as [|y l']; [destruct (H3 eq_refl) as [-> _]; cbn [bind]; auto|].
      destruct H4 as (xs & lst & Hs & _ & Hp2 & _); [discriminate|]. rewrite Hs. cbn [bind fst]. exists t. split; auto. apply (map_ok t f). intros z Hz. apply (Permutation_in _ Hp2), (Permutation_in _ Hp') in Hz. apply filter_In in Hz. destruct Hz as [Hz _]. apply filter_In in Hz. tauto.
    + destruct (Hc i x Hm Hi) as (l' & _ & Hp' & _ & H3 & H4). destruct l' as [|y l']; [destruct (H3 eq_refl) as [_ ->]; cbn [bind]; auto|].
      destruct H4 as (xs & lst & _ & Ht & Hp2 & _ & (ys & ->) & _); [discriminate|]. rewrite Ht. cbn [bind]. exists t. split; auto. intros z [<-|[]]. apply (impls_ok t f).
      assert (Hz : In lst (ys ++ [lst])) by (apply in_or_app; right; now left). apply (Permutation_in _ Hp2), (Permutation_in _ Hp') in Hz. apply filter_In in Hz. destruct Hz as [Hz _]. apply filter_In in Hz. tauto.
  - assert (K : ~ (In m (t_mixins t) /\ exists x, In x (m_features (e_mixin E m)) /\ ff_info x = f)). { intros [_ (x & Hx1 & Hx2)]. apply (find_none _ _ Hx) in Hx1. rewrite Hx2, Nat.eqb_refl in Hx1. discriminate. }
    destruct (Hno m Hnf K) as [_ A1]. destruct (Hcno K) as (A2 & _ & A3). destruct n; [rewrite A1|rewrite A3|rewrite (top_none_set _ _ _ _ _ A2)]; cbn [bind]; auto.
Qed.

(** ** Programs *)
Definition known (w : world) (r : tref) (ms : list mptr) : Prop := (forall t, w_type w r = Some t -> t_mixins t = ms) /\ (forall k, r = TReg k -> k < w_next w).
Lemma known_later w w' r ms : reachable E w -> known w r ms -> later w w' -> known w' r ms.
Proof.
  intros R [A B] [L1 L2 L3]. split; [|intros k Hk; specialize (B k Hk); lia]. intros t' Ht'. destruct (w_type w r) as [t|] eqn:Ht; [destruct (L2 r t t' Ht Ht') as (n & ->); exact (A t eq_refl)|].
  exfalso. destruct r as [d|k]; [destruct (winv_reachable _ _ R) as [_ T]; destruct (ti_empty _ _ T d) as (n & Hn); congruence|]. rewrite (L3 k) in Ht'; [discriminate|now apply B|auto].
Qed.
Lemma known_now s o r t : reachable E (s_w s) -> type_of s o r t -> known (s_w s) r (t_mixins t).
Proof.
  intros R (x & _ & _ & Ht). split; [congruence|]. intros k ->. destruct (Nat.lt_ge_cases k (w_next (s_w s))); auto. rewrite (bounded_reach E _ R k H) in Ht. discriminate.
Qed.
Section Good.
Variable Q : entry -> Prop.
Hypothesis HQ : forall e tr, kept_history E U tr (state_of e) -> Q e -> respects E e.
Definition good (s : st) (x : out) : Prop := forall tr, kept_history E U tr s -> Forall Q (fst x) -> Forall (respects E) (fst x) /\
  (forall r, snd (snd x) = Some r -> ~ is_ub r) /\ later (s_w s) (s_w (fst (snd x))) /\ exists tr', calls_made (fst x) tr' /\ kept_history E U (tr ++ tr') (fst (snd x)).
Lemma made_app l l' tr tr' : calls_made l tr -> calls_made l' tr' -> calls_made (l ++ l') (tr ++ tr').
Proof. induction 1; intros H'; cbn [app]; auto; try (constructor; auto); econstructor; eauto. Qed.
Lemma good_ends s r : ~ is_ub r -> good s (ends s r).
Proof. intros Hu tr H _. split; [constructor|]. split; [intros r' [= <-]; auto|]. split; [apply later_refl|]. exists []. rewrite app_nil_r. split; [constructor|auto]. Qed.
Lemma good_after s x k : good s x -> (forall r, ~ is_ub r -> later (s_w s) (s_w (fst (snd x))) -> good (fst (snd x)) (k r (fst (snd x)))) -> good s (after x k).
Proof.
  intros Hx Hk tr H F. destruct x as [l [s1 [[a|e|u]|]]]; cbn [fst snd] in *.
  3, 4: exact (Hx tr H F).
  all: cbn [after fst snd] in *; apply Forall_app in F; destruct F as [F1 F2]; destruct (Hx tr H F1) as (A0 & A1 & A2 & tr1 & A3 & A4).
  - destruct (Hk (Ok a) (fun x => x) A2 (tr ++ tr1) A4 F2) as (B0 & B1 & B2 & tr2 & B3 & B4). split; [apply Forall_app; auto|]. split; auto. cbn [fst snd] in A2. split; [exact (later_trans E _ _ _ (proj2 (proj2 (kept_inv _ _ H))) (proj2 (proj2 (kept_inv _ _ A4))) A2 B2)|].
    exists (tr1 ++ tr2). split; [now apply made_app|]. now rewrite app_assoc.
  - destruct (Hk (Throw e) (fun x => x) A2 (tr ++ tr1) A4 F2) as (B0 & B1 & B2 & tr2 & B3 & B4). split; [apply Forall_app; auto|]. split; auto. split; [exact (later_trans E _ _ _ (proj2 (proj2 (kept_inv _ _ H))) (proj2 (proj2 (kept_inv _ _ A4))) A2 B2)|].
    exists (tr1 ++ tr2). split; [now apply made_app|]. now rewrite app_assoc.
Qed.
Lemma good_now s x : (forall tr, kept_history E U tr s -> good s x) -> good s x.
Proof. intros H tr Hk. exact (H tr Hk tr Hk). Qed.
Lemma good_logged s e x : state_of e = s -> match e with ECall _ _ _ | ESelf _ _ _ _ _ | ENoThis _ => False | _ => True end -> (respects E e -> good s x) -> good s (logged e x).
Proof.
  intros <- He H tr Hk F. cbn [logged fst snd] in *. inversion F as [|? ? F1 F2]; subst. apply (HQ e tr Hk) in F1. destruct (H F1 tr Hk F2) as (A0 & A1 & A2 & tr' & A3 & A4). split; auto. split; auto. split; auto. exists tr'. split; auto.
  destruct e; try contradiction; constructor; auto.
Qed.
Lemma good_call s op s1 r k : op_run E U op s = (s1, r) -> (~ is_ub r -> good s1 (k r s1)) -> good s (logged (ECall s op r) (after (ends s1 r) k)).
Proof.
  intros Hr Hk tr H F. cbn [logged fst snd] in *. inversion F as [|? ? F0 F2]; subst. apply (HQ (ECall s op r) tr H) in F0. pose proof F0 as [F1 F1']. destruct (kept_inv _ _ H) as (I & Ty & R). destruct (act_any E U AM s op I Ty F1) as (s2 & r2 & R2 & Hu & _). rewrite Hr in R2. injection R2 as <- <-.
  assert (H1 : kept_history E U (tr ++ [(op, r)]) s1) by (eapply or_snoc; eauto; split; auto). pose proof (later_op s op s1 r R Hr Hu) as L.
  destruct r as [a|e|u]; [| |destruct Hu; exact Logic.I]; cbn [after ends app fst snd] in *; destruct (Hk Hu _ H1 F2) as (B0 & B1 & B2 & tr2 & B3 & B4); (split; [constructor; auto|]); (split; auto); (split; [exact (later_trans E _ _ _ R (proj2 (proj2 (kept_inv _ _ H1))) L B2)|]);
    (eexists; split; [apply cm_call; exact B3|]); rewrite <- app_assoc in B4; exact B4.
Qed.
Lemma good_self s m p j s1 r k : update U j m p s = (s1, r) -> (~ is_ub r -> good s1 (k r s1)) -> good s (logged (ESelf s m p j r) (after (ends s1 r) k)).
Proof.
  intros Hr Hk tr H F. cbn [logged fst snd] in *. inversion F as [|? ? F0 F2]; subst. apply (HQ (ESelf s m p j r) tr H) in F0. pose proof F0 as (o & i & v & F1). destruct (kept_inv _ _ H) as (I & Ty & R). rewrite (self_is_use s o i m p v j F1) in Hr.
  assert (Ff : fair E s (OUse o i j)). { apply holds_iff in F1. destruct F1 as (y & b & d & A1 & _ & (q & t & HT & _) & _). eapply typed_set; eauto. }
  destruct (act_any E U AM s _ I Ty Ff) as (s2 & r2 & R2 & Hu & _). rewrite Hr in R2. injection R2 as <- <-.
  assert (H1 : kept_history E U (tr ++ [(OUse o i j, r)]) s1) by (eapply or_snoc; eauto; split; auto; discriminate). pose proof (later_op s _ s1 r R Hr Hu) as L.
  destruct r as [a|e|u]; [| |destruct Hu; exact Logic.I]; cbn [after ends app fst snd] in *; destruct (Hk Hu _ H1 F2) as (B0 & B1 & B2 & tr2 & B3 & B4); (split; [constructor; auto|]); (split; auto); (split; [exact (later_trans E _ _ _ R (proj2 (proj2 (kept_inv _ _ H1))) L B2)|]);
    (eexists; split; [eapply cm_self; [exact F1|exact B3]|]); rewrite <- app_assoc in B4; exact B4.
Qed.
Lemma good_each run o r ms : (forall self P s, good s (run self P s)) -> forall l c s, (forall x, In x l -> impl_ok ms x) -> known (s_w s) r ms -> (c = 0 -> exists t, type_of s o r t) -> good s (each run o r c l s).
Proof.
  intros Hrun. induction l as [|x l IH]; intros c s Hl Hkn Hc; cbn [Reenter.each]; [apply good_ends; intros []|]. apply good_logged; [reflexivity|exact Logic.I|]. intros Hx. apply good_now. intros tr0 Hk0. destruct (kept_inv _ _ Hk0) as (I & Ty & R). apply good_after.
  - destruct x as [i k|k]; [|apply Hrun]. assert (Hx' : exists t, type_of s o r t) by (destruct c; [now apply Hc|exact Hx]). destruct Hx' as (t & HT). destruct (Hl _ (or_introl eq_refl)) as (m & y & Hm & Hy & <-). assert (Ht : w_type (s_w s) r = Some t) by (destruct HT as (z & _ & _ & Ht); exact Ht). rewrite Ht.
    rewrite <- (proj1 Hkn t Ht) in Hm. assert (Hh : has_mixin s o i m) by (exists r, t; auto). destruct (mixin_holds E s o i m I Ty Hh) as (p & v & Hp). rewrite (mixin_of s o i _ m p v Hp (FIT m y Hy)). apply Hrun.
  - intros r1 Hu L. set (s1 := fst (snd _)) in *. destruct r1 as [a|e|u]; [apply IH; [intros z Hz; apply Hl; now right|eapply known_later; eauto|discriminate]|now apply good_ends|now apply good_ends].
Qed.
Lemma good_nothis s : good s (logged (ENoThis s) (ends s (Ub UbNull))).
Proof. intros tr H F. inversion F as [|? ? F1]; subst. destruct (HQ (ENoThis s) tr H F1). Qed.
Lemma good_go n : forall self P s, good s (go n self P s).
Proof.
  induction n as [|n IH]; intros self P s; cbn [Reenter.go].
  - intros tr H _. cbn [fst snd]. split; [constructor|]. split; [discriminate|]. split; [apply later_refl|]. exists []. rewrite app_nil_r. split; [constructor|auto].
  - destruct P as [|e|op k|j k|mc o f k|nk f k].
    + apply good_ends; intros [].
    + apply good_ends; intros [].
    + destruct (op_run E U op s) as [s1 r] eqn:Hr. apply (good_call s op s1 r (fun r s => go n self (k r s) s)); auto.
    + destruct self as [[m p]|].
      * destruct (update U j m p s) as [s1 r] eqn:Hr. apply (good_self s m p j s1 r (fun r s => go n (Some (m, p)) (k r s) s)); auto.
      * apply good_nothis.
    + apply good_logged; [reflexivity|exact Logic.I|]. intros Hc. apply good_now. intros tr H. pose proof (sending_ok tr s mc o f H Hc) as K. apply good_after; auto.
      destruct (sending mc o f s) as [[r l]|e|u]; [|apply good_ends; intros []|contradiction]. destruct K as (t & HT & Hl). cbn [fst snd]. apply (good_each _ o r (t_mixins t)); auto; [exact (known_now s o r t (proj2 (proj2 (kept_inv _ _ H))) HT)|intros _; now exists t].
    + destruct self as [[m p]|].
      * apply good_logged; [reflexivity|exact Logic.I|]. intros Hc. apply good_now. intros tr H. pose proof (nexting_ok tr s nk m p f H Hc) as K. apply good_after; auto.
        destruct (nexting nk m p f s) as [[[o r] l]|e|u]; [|apply good_ends; intros []|contradiction]. destruct K as (t & HT & Hl). cbn [fst snd]. apply (good_each _ o r (t_mixins t)); auto; [exact (known_now s o r t (proj2 (proj2 (kept_inv _ _ H))) HT)|intros _; now exists t].
      * apply good_nothis.
Qed.

End Good.
Lemma q_respects : forall e tr, kept_history E U tr (state_of e) -> respects E e -> respects E e.
Proof. auto. Qed.
Notation goodr := (good (respects E)).
(** ** Objects that are left alone *)
Definition steady (objs : list nat) (s s' : st) : Prop := forall o, In o objs ->
  (forall r t, type_of s o r t -> exists t', type_of s' o r t') /\ (forall i m p v, holds s o i m p v -> exists v', holds s' o i m p v').
Lemma steady_refl objs s : steady objs s s.
Proof. intros o _. split; eauto. Qed.
Lemma steady_trans objs a b c : steady objs a b -> steady objs b c -> steady objs a c.
Proof.
  intros A B o Ho. destruct (A o Ho) as [A1 A2], (B o Ho) as [B1 B2]. split.
  - intros r t H. destruct (A1 r t H) as (t1 & H1). exact (B1 r t1 H1).
  - intros i m p v H. destruct (A2 i m p v H) as (v1 & H1). exact (B2 i m p v1 H1).
Qed.
Lemma type_there s o x r : Inv E s -> typed s -> s_obj s o = Some x -> o_type x = Some r -> exists t, type_of s o r t.
Proof.
  intros I Ty Hx Hr. destruct (o_data x) as [b|] eqn:Hd.
  - pose proof (iv_obj E _ I o x Hx) as Ho. unfold obj_ok in Ho. rewrite Hd in Ho. destruct Ho as (r' & t & dd & A & B & _). assert (r' = r) as -> by congruence. exists t, x. auto.
  - pose proof (Ty o x Hx Hd) as K. rewrite Hr in K. destruct r as [d|]; [|contradiction]. destruct (winv_reachable _ _ (iv_reach E s I)) as [_ T]. destruct (ti_empty _ _ T d) as (n & Hn). eexists. exists x. eauto.
Qed.
Lemma use_steady s o i j s' res objs : Inv E s -> typed s -> fair E s (OUse o i j) -> op_run E U (OUse o i j) s = (s', res) -> steady objs s s'.
Proof.
  intros I Ty F Hr. destruct (use_spec E U s o i j s' res I Ty F Hr) as [(_ & -> & _)|(m & p & v & v' & e & _ & _ & [A1 A2 A3 A4 A5 A6 A7] & _)]; [apply steady_refl|]. intros q _. split.
  - intros r t H. exists t. exact (A2 _ _ _ H).
  - intros k m' p' w H. apply holds_iff in H. destruct H as (x & b & d & C1 & C2 & (r & t & HT & Hm) & C4 & C5 & C6). specialize (A6 p'). rewrite C6 in A6. cbn in A6. destruct (instance s' p') as [[m2 v2]|] eqn:Hq; [|discriminate]. cbn in A6. injection A6 as ->.
    exists v2. apply holds_iff. exists x, b, d. rewrite A1, A4. split; [exact C1|]. split; auto. split; [exists r, t; split; auto|auto].
Qed.
Lemma op_steady s op s' res objs : Inv E s -> typed s -> fair E s op -> op_run E U op s = (s', res) -> (forall o, In o objs -> In o (may_change op) -> exists i j, op = OUse o i j) -> steady objs s s'.
Proof.
  intros I Ty F Hr Ha. destruct (match op with OUse _ _ _ => true | _ => false end) eqn:Hu; [destruct op; try discriminate; eapply use_steady; eauto|].
  intros o Ho. assert (Hn : ~ In o (may_change op)) by (intros Hin; destruct (Ha o Ho Hin) as (i & j & ->); discriminate). destruct (ObjTheorems9.frame E U AM s op s' res o I Ty F Hr Hn) as [Fo Fh].
  destruct (act_any E U AM s op I Ty F) as (s2 & r2 & R2 & _ & I2 & Ty2). rewrite Hr in R2. injection R2 as <- <-. split.
  - intros r t (x & A & B & _). apply (type_there s' o x r I2 Ty2); [now rewrite Fo|auto].
  - intros i m p v H. exists v. now apply Fh.
Qed.
Definition mine (objs : list nat) (s : st) (self : option (mptr * addr)) : Prop := forall m p, self = Some (m, p) -> exists o i v, In o objs /\ holds s o i m p v.
Lemma mine_steady objs s s' self : mine objs s self -> steady objs s s' -> mine objs s' self.
Proof. intros M S m p Hs. destruct (M m p Hs) as (o & i & v & Ho & H). destruct (S o Ho) as [_ K]. destruct (K i m p v H) as (v' & H'). exists o, i, v'. auto. Qed.
(** ** How messages are delivered *)
Lemma after_done x k L s' r : after x k = (L, (s', Some r)) -> ~ is_ub r -> exists r1, snd (snd x) = Some r1 /\ ~ is_ub r1 /\ L = fst x ++ fst (k r1 (fst (snd x))) /\ k r1 (fst (snd x)) = (fst (k r1 (fst (snd x))), (s', Some r)).
Proof.
  destruct x as [l [s1 [[a|e|u]|]]]; cbn [after fst snd]; intros H Hu.
  - exists (Ok a). split; auto. split; [intros []|]. injection H as <- H. split; auto. destruct (k (Ok a) s1) as [y z]. cbn in *. congruence.
  - exists (Throw e). split; auto. split; [intros []|]. injection H as <- H. split; auto. destruct (k (Throw e) s1) as [y z]. cbn in *. congruence.
  - injection H as _ _ <-. destruct Hu; exact Logic.I.
  - discriminate H.
Qed.
Lemma after_done2 x k s' r : snd (after x k) = (s', Some r) -> ~ is_ub r -> exists r1, snd (snd x) = Some r1 /\ ~ is_ub r1 /\ fst (after x k) = fst x ++ fst (k r1 (fst (snd x))) /\ k r1 (fst (snd x)) = (fst (k r1 (fst (snd x))), (s', Some r)).
Proof. intros H. apply after_done. destruct (after x k) as [a b]. cbn in *. congruence. Qed.
Lemma each_delivers run o r ms : (forall self P s, goodr s (run self P s)) -> forall l c s tr L s1 r1, kept_history E U tr s -> (forall x, In x l -> impl_ok ms x) -> known (s_w s) r ms -> (c = 0 -> exists t, type_of s o r t) ->
  Forall (respects E) L -> each run o r c l s = (L, (s1, Some r1)) -> delivers (function_runs run body dbody o) o r c l s L s1 r1.
Proof.
  intros Hrun. induction l as [|x l IH]; intros c s tr L s1 r1 H Hl Hkn Hc F Hx.
  - cbn in Hx. injection Hx as <- <- <-. constructor.
  - pose proof (good_each (respects E) q_respects run o r ms Hrun (x :: l) c s Hl Hkn Hc tr H) as G. rewrite Hx in G. destruct (G F) as (_ & Hub & _). specialize (Hub r1 eq_refl). cbn [Reenter.each] in Hx. destruct (kept_inv _ _ H) as (I & Ty & R).
    unfold logged in Hx. injection Hx as <- Hx. inversion F as [|? ? F1 F2]; subst.
    set (X := match x with ExecDefault _ => _ | ExecImpl _ _ => _ end) in *.
    assert (RX : forall L' s' r', X = (L', (s', Some r')) -> function_runs run body dbody o x s L' s' r').
    { unfold X. intros L' s' r' HX. destruct x as [i k|k]; [|exact HX]. assert (Hx' : exists t, type_of s o r t) by (destruct c; [now apply Hc|exact F1]). destruct Hx' as (t & HT). destruct (Hl _ (or_introl eq_refl)) as (m & y & Hm & Hy & <-).
      assert (Ht : w_type (s_w s) r = Some t) by (destruct HT as (z & _ & _ & Ht); exact Ht). rewrite Ht in HX. rewrite <- (proj1 Hkn t Ht) in Hm. assert (Hh : has_mixin s o i m) by (exists r, t; auto).
      destruct (mixin_holds E s o i m I Ty Hh) as (p & v & Hp). rewrite (mixin_of s o i _ m p v Hp (FIT m y Hy)) in HX. exists m, p, v. split; [exact Hp|exact HX]. }
    assert (GX : goodr s X).
    { unfold X. destruct x as [i k|k]; [|apply Hrun]. assert (Hx' : exists t, type_of s o r t) by (destruct c; [now apply Hc|exact F1]). destruct Hx' as (t & HT). destruct (Hl _ (or_introl eq_refl)) as (m & y & Hm & Hy & <-).
      assert (Ht : w_type (s_w s) r = Some t) by (destruct HT as (z & _ & _ & Ht); exact Ht). rewrite Ht. rewrite <- (proj1 Hkn t Ht) in Hm. assert (Hh : has_mixin s o i m) by (exists r, t; auto).
      destruct (mixin_holds E s o i m I Ty Hh) as (p & v & Hp). rewrite (mixin_of s o i _ m p v Hp (FIT m y Hy)). apply Hrun. }
    clearbody X. set (k := fun (res : res unit) (s' : st) => _) in Hx, F2 |- *. remember (after X k) as Y eqn:HY. destruct Y as [LY [sY rY]]. cbn [fst snd] in *. injection Hx as -> ->. symmetry in HY.
    destruct (after_done X k LY s1 r1 HY Hub) as (r2 & A & B & -> & D). apply Forall_app in F2. destruct F2 as [F2 F3]. destruct X as [LX [sX rX]]. cbn [fst snd] in *. subst rX. destruct (GX tr H F2) as (_ & _ & L2 & tr1 & _ & H1). cbn [fst snd] in *.
    destruct r2 as [[]|e|u]; [| |destruct B; exact Logic.I].
    + apply dv_next with (s1 := sX); [now apply RX|]. cbn [k] in D |- *. apply (IH (S c) sX (tr ++ tr1)); auto; [intros z Hz; apply Hl; now right|eapply known_later; eauto|discriminate].
    + cbn in D. injection D as <- <-. cbn. rewrite app_nil_r. apply dv_throw. now apply RX.
Qed.
Lemma send_steps n self mc o f k tr s log s' res : kept_history E U tr s -> go (S n) self (PSend mc o f k) s = (log, (s', Some res)) -> Forall (respects E) log ->
  exists L s1 r1 rest, log = ESend s o f :: L ++ rest /\ go n self (k r1 s1) s1 = (rest, (s', Some res)) /\
    match sending mc o f s with Ok (r, l) => delivers (function_runs (go n) body dbody o) o r 0 l s L s1 r1 | Throw e => L = [] /\ s1 = s /\ r1 = Throw e | Ub _ => False end.
Proof.
  intros H G F. pose proof (good_go (respects E) q_respects (S n) self (PSend mc o f k) s tr H) as K. rewrite G in K. destruct (K F) as (_ & Hub & _). specialize (Hub res eq_refl). clear K. cbn [Reenter.go] in G. unfold logged in G. injection G as <- G. inversion F as [|? ? F1 F2]; subst.
  pose proof (sending_ok tr s mc o f H F1) as K. set (X := match sending mc o f s with Ok _ => _ | Throw _ => _ | Ub _ => _ end) in *.
  destruct (after_done2 _ _ _ _ G Hub) as (r1 & A & B & C & D). rewrite C in F2 |- *. apply Forall_app in F2. destruct F2 as [F2 _]. destruct X as [LX [sX rX]] eqn:HX. cbn [fst snd] in *. subst rX. exists LX, sX, r1. eexists. split; [reflexivity|]. split; [exact D|]. subst X.
  destruct (sending mc o f s) as [[r l]|e|u]; [|unfold ends in HX; now injection HX as <- <- <-|contradiction]. destruct K as (t & HT & Hl). cbn [fst snd] in HX.
  apply (each_delivers (go n) o r (t_mixins t) (good_go (respects E) q_respects n) l 0 s tr LX sX r1 H Hl (known_now s o r t (proj2 (proj2 (kept_inv _ _ H))) HT) (fun _ => ex_intro _ t HT) F2 HX).
Qed.
Lemma next_steps n m p nk f k tr s log s' res : kept_history E U tr s -> go (S n) (Some (m, p)) (PNext nk f k) s = (log, (s', Some res)) -> Forall (respects E) log ->
  exists L s1 r1 rest, log = ENext s m p f :: L ++ rest /\ go n (Some (m, p)) (k r1 s1) s1 = (rest, (s', Some res)) /\
    match nexting nk m p f s with Ok (o, r, l) => delivers (function_runs (go n) body dbody o) o r 0 l s L s1 r1 | Throw e => L = [] /\ s1 = s /\ r1 = Throw e | Ub _ => False end.
Proof.
  intros H G F. pose proof (good_go (respects E) q_respects (S n) (Some (m, p)) (PNext nk f k) s tr H) as K. rewrite G in K. destruct (K F) as (_ & Hub & _). specialize (Hub res eq_refl). clear K. cbn [Reenter.go] in G. unfold logged in G. injection G as <- G. inversion F as [|? ? F1 F2]; subst.
  pose proof (nexting_ok tr s nk m p f H F1) as K. set (X := match nexting nk m p f s with Ok _ => _ | Throw _ => _ | Ub _ => _ end) in *.
  destruct (after_done2 _ _ _ _ G Hub) as (r1 & A & B & C & D). rewrite C in F2 |- *. apply Forall_app in F2. destruct F2 as [F2 _]. destruct X as [LX [sX rX]] eqn:HX. cbn [fst snd] in *. subst rX. exists LX, sX, r1. eexists. split; [reflexivity|]. split; [exact D|]. subst X.
  destruct (nexting nk m p f s) as [[[o r] l]|e|u]; [|unfold ends in HX; now injection HX as <- <- <-|contradiction]. destruct K as (t & HT & Hl). cbn [fst snd] in HX.
  apply (each_delivers (go n) o r (t_mixins t) (good_go (respects E) q_respects n) l 0 s tr LX sX r1 H Hl (known_now s o r t (proj2 (proj2 (kept_inv _ _ H))) HT) (fun _ => ex_intro _ t HT) F2 HX).
Qed.
Lemma call_steps n self op k s log s' res : go (S n) self (PCall op k) s = (log, (s', Some res)) -> ~ is_ub res ->
  exists s1 r1 rest, op_run E U op s = (s1, r1) /\ log = ECall s op r1 :: rest /\ go n self (k r1 s1) s1 = (rest, (s', Some res)).
Proof.
  intros G Hu. cbn [Reenter.go] in G. destruct (op_run E U op s) as [s1 r1]. unfold logged in G. injection G as <- G.
  exists s1, r1, (fst (go n self (k r1 s1) s1)). destruct r1 as [a|e|u]; [| |injection G as _ <-; destruct Hu; exact Logic.I]; (split; [reflexivity|]; split; [reflexivity|]; cbn [snd] in G; rewrite <- G; apply surjective_pairing).
Qed.
Lemma self_steps n m p j k s o i v log s' res : holds s o i m p v -> go (S n) (Some (m, p)) (PSelf j k) s = (log, (s', Some res)) -> ~ is_ub res ->
  exists s1 r1 rest, op_run E U (OUse o i j) s = (s1, r1) /\ log = ESelf s m p j r1 :: rest /\ go n (Some (m, p)) (k r1 s1) s1 = (rest, (s', Some res)).
Proof.
  intros Hh G Hu. cbn [Reenter.go] in G. rewrite (self_is_use s o i m p v j Hh) in G. destruct (op_run E U (OUse o i j) s) as [s1 r1]. unfold logged in G. injection G as <- G.
  exists s1, r1, (fst (go n (Some (m, p)) (k r1 s1) s1)). destruct r1 as [a|e|u]; [| |injection G as _ <-; destruct Hu; exact Logic.I]; (split; [reflexivity|]; split; [reflexivity|]; cbn [snd] in G; rewrite <- G; apply surjective_pairing).
Qed.
Section Alone.
Variable objs : list nat.
Notation alone := (leaves_alone E objs).
Definition calm (s : st) (x : out) : Prop := goodr s x -> forall tr, kept_history E U tr s -> Forall alone (fst x) -> Forall (respects E) (fst x) /\ steady objs s (fst (snd x)).
Lemma calm_ends s r : calm s (ends s r).
Proof. intros _ tr H _. split; [constructor|apply steady_refl]. Qed.
Lemma calm_after s x k : goodr s x -> calm s x -> (forall r, steady objs s (fst (snd x)) -> goodr (fst (snd x)) (k r (fst (snd x))) /\ calm (fst (snd x)) (k r (fst (snd x)))) -> calm s (after x k).
Proof.
  intros G C K _ tr H F. destruct x as [l [s1 [[a|e|u]|]]]; cbn [after fst snd] in *; try exact (C G tr H F).
  - apply Forall_app in F. destruct F as [F1 F2]. destruct (C G tr H F1) as [R1 S1]. destruct (G tr H R1) as (_ & _ & _ & tr1 & _ & H1). destruct (K (Ok a) S1) as [G2 C2]. destruct (C2 G2 _ H1 F2) as [R2 S2]. split; [apply Forall_app; auto|exact (steady_trans _ _ _ _ S1 S2)].
  - apply Forall_app in F. destruct F as [F1 F2]. destruct (C G tr H F1) as [R1 S1]. destruct (G tr H R1) as (_ & _ & _ & tr1 & _ & H1). destruct (K (Throw e) S1) as [G2 C2]. destruct (C2 G2 _ H1 F2) as [R2 S2]. split; [apply Forall_app; auto|exact (steady_trans _ _ _ _ S1 S2)].
Qed.
Lemma calm_logged s e x : (forall tr, kept_history E U tr s -> alone e -> respects E e /\ goodr s x /\ calm s x) -> calm s (logged e x).
Proof.
  intros K _ tr H F. cbn [logged fst snd] in *. inversion F as [|? ? F1 F2]; subst. destruct (K tr H F1) as (R & G & C). destruct (C G tr H F2) as [A B]. auto.
Qed.
Lemma calm_call s op s1 r k : op_run E U op s = (s1, r) -> (forall r, goodr s1 (k r s1)) -> (steady objs s s1 -> forall r, calm s1 (k r s1)) -> calm s (logged (ECall s op r) (after (ends s1 r) k)).
Proof.
  intros Hr G K _ tr H F. cbn [logged fst snd] in *. inversion F as [|? ? F1 F2]; subst. destruct F1 as [[F1 F1'] Fa]. destruct (kept_inv _ _ H) as (I & Ty & R). pose proof (op_steady s op s1 r objs I Ty F1 Hr Fa) as St.
  destruct (act_any E U AM s op I Ty F1) as (s2 & r2 & R2 & Hu & _). rewrite Hr in R2. injection R2 as <- <-.
  assert (H1 : kept_history E U (tr ++ [(op, r)]) s1) by (eapply or_snoc; eauto; split; auto).
  destruct r as [a|e|u]; [| |destruct Hu; exact Logic.I]; cbn [after ends app fst snd] in *; destruct (K St _ (G _) _ H1 F2) as [A B]; (split; [constructor; auto; split; auto|exact (steady_trans _ _ _ _ St B)]).
Qed.
Lemma calm_self s m p j s1 r k : mine objs s (Some (m, p)) -> update U j m p s = (s1, r) -> (forall r, goodr s1 (k r s1)) -> (steady objs s s1 -> forall r, calm s1 (k r s1)) -> calm s (logged (ESelf s m p j r) (after (ends s1 r) k)).
Proof.
  intros M Hr G K _ tr H F. destruct (M m p eq_refl) as (o & i & v & Ho & Hh). cbn [logged fst snd] in *. inversion F as [|? ? F1 F2]; subst. destruct (kept_inv _ _ H) as (I & Ty & R). rewrite (self_is_use s o i m p v j Hh) in Hr.
  assert (Ff : fair E s (OUse o i j)). { apply holds_iff in Hh. destruct Hh as (y & b & d & A1 & _ & (q & t & HT & _) & _). eapply typed_set; eauto. }
  destruct (act_any E U AM s _ I Ty Ff) as (s2 & r2 & R2 & Hu & _). rewrite Hr in R2. injection R2 as <- <-. pose proof (use_steady s o i j s1 r objs I Ty Ff Hr) as St.
  assert (H1 : kept_history E U (tr ++ [(OUse o i j, r)]) s1) by (eapply or_snoc; eauto; split; auto; discriminate). assert (Rs : respects E (ESelf s m p j r)) by (exists o, i, v; exact Hh).
  destruct r as [a|e|u]; [| |destruct Hu; exact Logic.I]; cbn [after ends app fst snd] in *; destruct (K St _ (G _) _ H1 F2) as [A B]; (split; [constructor; auto|exact (steady_trans _ _ _ _ St B)]).
Qed.
Lemma calm_each run o r ms : (forall self P s, goodr s (run self P s)) -> (forall self P s, mine objs s self -> calm s (run self P s)) -> In o objs ->
  forall l c s tr, kept_history E U tr s -> (forall x, In x l -> impl_ok ms x) -> known (s_w s) r ms -> (exists t, type_of s o r t) -> calm s (each run o r c l s).
Proof.
  intros Hrun Hc Ho. induction l as [|x l IH]; intros c s tr0 Hk0 Hl Hkn (t & HT); cbn [Reenter.each]; [apply calm_ends|]. destruct (kept_inv _ _ Hk0) as (I & Ty & R).
  assert (Hr : forall x c s, known (s_w s) r ms -> (exists t, type_of s o r t) -> impl_ok ms x -> forall tr, kept_history E U tr s -> respects E (EOn s o r c x)) by (intros [i k|k] [|c'] s0 _ HT0 _ tr _; cbn; auto).
  apply calm_logged. intros tr Hk _. split; [apply (Hr x c s Hkn (ex_intro _ t HT) (Hl x (or_introl eq_refl)) tr Hk)|].
  set (X := match x with ExecDefault _ => _ | ExecImpl _ _ => _ end).
  assert (GX : goodr s X /\ calm s X).
  { unfold X. destruct x as [i k|k]; [|split; [apply Hrun|apply Hc; intros ? ? ?; discriminate]]. destruct (Hl _ (or_introl eq_refl)) as (m & y & Hm & Hy & <-). assert (Ht : w_type (s_w s) r = Some t) by (destruct HT as (z & _ & _ & Ht); exact Ht). rewrite Ht.
    rewrite <- (proj1 Hkn t Ht) in Hm. assert (Hh : has_mixin s o i m) by (exists r, t; auto). destruct (mixin_holds E s o i m I Ty Hh) as (p & v & Hp). rewrite (mixin_of s o i _ m p v Hp (FIT m y Hy)). split; [apply Hrun|]. apply Hc. intros m' p' [= <- <-]. exists o, i, v. auto. }
  destruct GX as [G C]. assert (N : forall r1 s1, later (s_w s) (s_w s1) -> goodr s1 (match r1 with Ok _ => each run o r (S c) l s1 | _ => ends s1 r1 end) \/ is_ub r1).
  { intros [a|e|u] s1 L; [left|left; apply (good_ends (respects E)); intros []|right; exact Logic.I]. apply (good_each (respects E) q_respects run o r ms); auto; [intros z Hz; apply Hl; now right|eapply known_later; eauto|discriminate]. }
  split; [apply (good_after (respects E)); auto; intros r1 Hu L; destruct (N r1 _ L); [assumption|contradiction]|].
  intros G' tr' H' F. clearbody X. destruct X as [lx [s1 [[a|e|u]|]]]; cbn [after fst snd] in *; try exact (C G tr' H' F).
  - apply Forall_app in F. destruct F as [F1 F2]. destruct (C G tr' H' F1) as [R1 S1]. destruct (G tr' H' R1) as (_ & _ & L & tr1 & _ & H1). cbn [fst snd] in *. destruct (S1 o Ho) as [ST _]. pose proof (ST r t HT) as HT1.
    assert (K1 : known (s_w s1) r ms) by (eapply known_later; eauto). assert (Hl' : forall z, In z l -> impl_ok ms z) by (intros z Hz; apply Hl; now right).
    destruct (IH (S c) s1 _ H1 Hl' K1 HT1 (good_each (respects E) q_respects run o r ms Hrun l (S c) s1 Hl' K1 ltac:(discriminate)) _ H1 F2) as [R2 S2]. split; [apply Forall_app; auto|exact (steady_trans _ _ _ _ S1 S2)].
  - rewrite app_nil_r in *. exact (C G tr' H' F).
Qed.
Lemma calm_nothis s : calm s (logged (ENoThis s) (ends s (Ub UbNull))).
Proof. intros _ tr H F. inversion F as [|? ? F1]; subst. contradiction. Qed.
Lemma calm_go n : forall self P s, mine objs s self -> calm s (go n self P s).
Proof.
  induction n as [|n IH]; intros self P s M; cbn [Reenter.go]; [intros _ tr _ _; split; [constructor|apply steady_refl]|].
  destruct P as [|e|op k|j k|mc o f k|nk f k].
  - apply calm_ends.
  - apply calm_ends.
  - destruct (op_run E U op s) as [s1 r] eqn:Hr. apply (calm_call s op s1 r (fun r s => go n self (k r s) s)); auto; [intros; apply (good_go (respects E) q_respects)|]. intros St r1. apply IH. eapply mine_steady; eauto.
  - destruct self as [[m p]|]; [|apply calm_nothis]. destruct (update U j m p s) as [s1 r] eqn:Hr. apply (calm_self s m p j s1 r (fun r s => go n (Some (m, p)) (k r s) s)); auto; [intros; apply (good_go (respects E) q_respects)|]. intros St r1. apply IH. eapply mine_steady; eauto.
  - apply calm_logged. intros tr H [Ho Hc]. split; [exact Hc|]. pose proof (sending_ok tr s mc o f H Hc) as K. set (X := match sending mc o f s with Ok _ => _ | Throw _ => _ | Ub _ => _ end).
    assert (GX : goodr s X /\ calm s X).
    { unfold X. destruct (sending mc o f s) as [[r l]|e|u]; [|split; [apply (good_ends (respects E)); intros []|apply calm_ends]|contradiction]. destruct K as (t & HT & Hl). cbn [fst snd]. pose proof (known_now s o r t (proj2 (proj2 (kept_inv _ _ H))) HT) as Kn.
      split; [apply (good_each (respects E) q_respects _ o r (t_mixins t)); auto; [apply (good_go (respects E) q_respects)|intros _; now exists t]|apply (calm_each _ o r (t_mixins t)) with (tr := tr); auto; [apply (good_go (respects E) q_respects)|now exists t]]. }
    destruct GX as [G C]. split; [apply (good_after (respects E)); auto; intros; apply (good_go (respects E) q_respects)|]. apply calm_after; auto. intros r1 St. split; [apply (good_go (respects E) q_respects)|]. apply IH. eapply mine_steady; eauto.
  - destruct self as [[m p]|]; [|apply calm_nothis]. apply calm_logged. intros tr H Hf. destruct (M m p eq_refl) as (o & i & v & Ho & Hh). destruct (kept_inv _ _ H) as (I & Ty & R).
    assert (HT : exists r t, type_of s o r t) by (apply holds_iff in Hh; destruct Hh as (_ & _ & _ & _ & _ & (r & t & HT & _) & _); eauto). destruct HT as (r & t & HT).
    assert (Hc : can_next s m p f) by (exists o, i, v, r, t; repeat (split; auto); eapply Hf; eauto). split; [exact Hc|].
    pose proof (nexting_ok tr s nk m p f H Hc) as K. pose proof (nexting_type nk m p f s o i v r t I Ty Hh HT) as NT. set (X := match nexting nk m p f s with Ok _ => _ | Throw _ => _ | Ub _ => _ end).
    assert (GX : goodr s X /\ calm s X).
    { unfold X. destruct (nexting nk m p f s) as [[[o' r'] l]|e|u]; [|split; [apply (good_ends (respects E)); intros []|apply calm_ends]|contradiction]. assert (o' = o) as -> by (destruct nk; match type of NT with _ = bind (bind ?a _) _ => destruct a as [?|?|?]; cbn [bind] in NT; congruence end).
      destruct K as (t' & HT' & Hl). cbn [fst snd]. pose proof (known_now s o r' t' R HT') as Kn.
      split; [apply (good_each (respects E) q_respects _ o r' (t_mixins t')); auto; [apply (good_go (respects E) q_respects)|intros _; now exists t']|apply (calm_each _ o r' (t_mixins t')) with (tr := tr); auto; [apply (good_go (respects E) q_respects)|now exists t']]. }
    destruct GX as [G C]. split; [apply (good_after (respects E)); auto; intros; apply (good_go (respects E) q_respects)|]. apply calm_after; auto. intros r1 St. split; [apply (good_go (respects E) q_respects)|]. apply IH. eapply mine_steady; eauto.
Qed.
End Alone.

(** ** Which functions *)
Lemma sending_impls tr s o r t f : kept_history E U tr s -> type_of s o r t -> feature_in (s_w s) (t_dom t) f -> impls E (t_mixins t) f <> [] ->
  (exists x, sending false o f s = Ok (r, [exec_of x]) /\ In x (impls E (t_mixins t) f) /\ forall y, In y (impls E (t_mixins t) f) -> ~ preferred y x) /\
  (exists xs, sending true o f s = Ok (r, map exec_of xs) /\ Permutation xs (top_bidders (impls E (t_mixins t) f)) /\ StronglySorted executed_before xs).
Proof.
  intros H HT Hf Hne. destruct (kept_inv _ _ H) as (I & Ty & R). destruct (kept_world E U _ _ H) as (dtr & Hd). pose proof (type_has E s o r t R HT) as Hh. rewrite !(sending_type _ o f s r t HT). split.
  - destruct (c24 E dtr _ _ r t f Hd Hh Hf Hne) as (x & Hx & Hi & Hp). exists x. rewrite Hx. auto.
  - destruct (c25 E dtr _ _ r t f Hd Hh Hf Hne) as (xs & lst & Hx & Hp & Hs & _). exists xs. rewrite Hx. auto.
Qed.
Lemma sending_default tr s o r t f mc : kept_history E U tr s -> type_of s o r t -> feature_in (s_w s) (t_dom t) f \/ w_fid (s_w s) f = None -> impls E (t_mixins t) f = [] ->
  sending mc o f s = match f_default (e_feature E f) with Some k => Ok (r, [ExecDefault k]) | None => Throw ENotImplemented end.
Proof.
  intros H HT Hf Hi. destruct (kept_inv _ _ H) as (I & Ty & R). destruct (kept_world E U _ _ H) as (dtr & Hd). pose proof (type_has E s o r t R HT) as Hh. rewrite (sending_type _ o f s r t HT).
  assert (Hn : ftable_at t (w_fid (s_w s) f) = None).
  { apply (finv_run E) in Hd. destruct Hd as [Hrun HF]. destruct Hf as [Hf|Hf]; [|rewrite Hf; reflexivity]. destruct (table_spec E (s_w s) _ r t f (winv_run _ _ _ Hrun) HF Hh Hf) as [[_ ?]|[? _]]; auto. contradiction. }
  unfold call_multicast, call_unicast. rewrite Hn. unfold try_default. destruct (f_default (e_feature E f)); destruct mc; reflexivity.
Qed.
Lemma nexting_impls tr s o i m p v r t f : kept_history E U tr s -> type_of s o r t -> feature_in (s_w s) (t_dom t) f -> holds s o i m p v ->
  exists l, Permutation l (impls E (t_mixins t) f) /\ StronglySorted (fun a b => ~ preferred b a) l /\
    (forall k x, nth_error l k = Some x -> fst x = i -> nexting NImpl m p f s = match nth_error l (S k) with Some y => Ok (o, r, [exec_of y]) | None => Throw ENotImplemented end) /\
    (forall x, In (i, x) l -> let b := next_bidders (ff_bid x) (impls E (t_mixins t) f) in
       (b = [] -> nexting NSet m p f s = Throw ENotImplemented /\ nexting NTop m p f s = Throw ENotImplemented) /\
       (b <> [] -> exists xs last, Permutation (xs ++ [last]) b /\ StronglySorted executed_before (xs ++ [last]) /\ (forall y, In y b -> ~ preferred y last) /\
          nexting NSet m p f s = Ok (o, r, map exec_of (xs ++ [last])) /\ nexting NTop m p f s = Ok (o, r, [exec_of last]))) /\
    (forall n, ~ In i (map fst l) -> nexting n m p f s = Throw ENotImplemented).
Proof.
  intros H HT Hf Hh. destruct (kept_inv _ _ H) as (I & Ty & R). destruct (kept_world E U _ _ H) as (dtr & Hd). pose proof (type_has E s o r t R HT) as HH. pose proof (holds_index_of s o i m p v r t HT Hh) as Hm.
  assert (Hnf : not_foreign (s_w s) (t_dom t) m). { left. destruct (finv_run E _ _ Hd) as [Hrun HF]. exact (type_mixins E _ _ _ _ (winv_run _ _ _ Hrun) HH m (nth_error_In _ _ Hm)). }
  destruct (c27 E dtr _ _ r t f LO Hd HH Hf) as (l & Hp & Hs & _ & Hn & Hno). destruct (c28 E dtr _ _ r t f m LO Hd HH Hf Hnf) as [Hc Hcno]. exists l. split; auto. split; auto. repeat split.
  - intros k x Hk Hx. subst i. destruct (Hn k x m Hk Hm) as (_ & _ & H3). rewrite (nexting_type NImpl m p f s o _ v r t I Ty Hh HT), H3. destruct (nth_error l (S k)); reflexivity.
  - rewrite (nexting_type NSet m p f s o _ v r t I Ty Hh HT). pose proof (Permutation_in _ Hp H0) as Hi. destruct (Hc i x Hm Hi) as (l' & _ & Hp' & _ & H3 & _). change (bid_of (i, x)) with (ff_bid x) in Hp'. rewrite H1 in Hp'. apply Permutation_sym, Permutation_nil in Hp'. destruct (H3 Hp') as [-> _]. reflexivity.
  - rewrite (nexting_type NTop m p f s o _ v r t I Ty Hh HT). pose proof (Permutation_in _ Hp H0) as Hi. destruct (Hc i x Hm Hi) as (l' & _ & Hp' & _ & H3 & _). change (bid_of (i, x)) with (ff_bid x) in Hp'. rewrite H1 in Hp'. apply Permutation_sym, Permutation_nil in Hp'. destruct (H3 Hp') as [_ ->]. reflexivity.
  - intros Hb. pose proof (Permutation_in _ Hp H0) as Hi. destruct (Hc i x Hm Hi) as (l' & _ & Hp' & _ & _ & H4). change (bid_of (i, x)) with (ff_bid x) in Hp'.
    destruct H4 as (xs & lst & A & B & C & D & (ys & ->) & F); [intros ->; apply Permutation_nil in Hp'; contradiction|]. exists ys, lst. split; [exact (perm_trans C Hp')|]. split; auto. split; [intros y Hy; apply F; exact (Permutation_in _ (Permutation_sym Hp') Hy)|].
    rewrite (nexting_type NSet m p f s o _ v r t I Ty Hh HT), (nexting_type NTop m p f s o _ v r t I Ty Hh HT), A, B. auto.
  - intros n Hi. assert (K : ~ (In m (t_mixins t) /\ exists x, In x (m_features (e_mixin E m)) /\ ff_info x = f)).
    { intros [_ (x & Hx1 & Hx2)]. apply Hi. apply in_map_iff. exists (i, x). split; auto. apply (Permutation_in _ (Permutation_sym Hp)). apply impls_in. exists m. auto. }
    destruct (Hno m Hnf K) as [_ A1]. destruct (Hcno K) as (A2 & _ & A3). rewrite (nexting_type n m p f s o _ v r t I Ty Hh HT). destruct n; [rewrite A1|rewrite A3|rewrite (top_none_set _ _ _ _ _ A2)]; reflexivity.
Qed.
End Re.
