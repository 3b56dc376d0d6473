(** What the mutating calls do; every fair call keeps the invariant *)
From Coq Require Import List Arith ZArith NArith Lia Bool Sorted Permutation.
From Verif Require Import Base Sv BaseLemmas Info Registry TypeMut TypeBuild TypeQuery Domain ElemProofs TypesProofs SpecDom HistProofs DomTheorems SpecLayout LayoutProofs Heap HeapProofs Mutation Object
  PartProofs RollProofs AllocProofs UpdProofs FinProofs PerfProofs WorldProofs ObjProofs OpProofs PlanProofs SpecObj ActProofs ActProofs2 MatchProofs.
Import ListNotations.

Section Act3.
Variable E : env.
Variable U : user.
Hypothesis AM : aligned_mixins E.
Notation Inv := (Inv E).

(** ** The overrides of mutate_to *)
Lemma resolve_spec w d t ops : (forall k nm, In (MInitName k nm) ops -> get_mixin_by_name E w d nm <> None) ->
  exists l, resolve_ops E w d t ops = Ok l /\
    forall k m i, In (k, m, i) l <-> exists op, In op ops /\ op_num op = Some k /\ op_mixin E w d op = Some m /\ index_of t (w_mid w m) = Some i.
Proof.
  induction ops as [|op ops IH]; intros H.
  - exists []. split; [reflexivity|]. intros k m i. split; [intros []|intros (op & [] & _)].
  - destruct IH as (l & Hl & Hin); [intros k nm Hx; apply (H k nm); now right|].
    assert (Ha : exists a, resolve_op E w d t op = Ok a /\ forall k m i, In (k, m, i) a <-> op_num op = Some k /\ op_mixin E w d op = Some m /\ index_of t (w_mid w m) = Some i).
    { destruct op as [|k m|k nm]; cbn [resolve_op op_num op_mixin].
      - exists []. split; auto. intros k m i. split; [intros []|intros (A & _); discriminate].
      - destruct (index_of t (w_mid w m)) as [i|] eqn:Hi.
        + exists [(k, m, i)]. split; auto. intros k' m' i'. split; [intros [[= <- <- <-]|[]]; auto|]. intros ([= <-] & [= <-] & Hi'). left. congruence.
        + exists []. split; auto. intros k' m' i'. split; [intros []|]. intros (_ & [= <-] & Hi'). congruence.
      - destruct (get_mixin_by_name E w d nm) as [m|] eqn:Hg; [|exfalso; apply (H k nm); [now left|exact Hg]]. destruct (index_of t (w_mid w m)) as [i|] eqn:Hi.
        + exists [(k, m, i)]. split; auto. intros k' m' i'. split; [intros [[= <- <- <-]|[]]; auto|]. intros ([= <-] & [= <-] & Hi'). left. congruence.
        + exists []. split; auto. intros k' m' i'. split; [intros []|]. intros (_ & [= <-] & Hi'). congruence. }
    destruct Ha as (a & Ha & Hina). exists (a ++ l). cbn [resolve_ops]. rewrite Ha, Hl. split; [reflexivity|]. intros k m i. rewrite in_app_iff, Hina, Hin. split.
    + intros [(A & B & C)|(op' & A & B)]; [exists op|exists op']; split; auto; [now left|now right].
    + intros (op' & [<-|A] & B); [left; auto|right; exists op'; auto].
Qed.

Lemma ascends_sorted l : forall u, StronglySorted (le_by (fun a b : nat * mptr * nat => snd a <? snd b)) l -> NoDup (map snd l) -> (forall p, In p l -> u <= snd p) -> ascends u l.
Proof.
  induction l as [|[[k m] i] l IH]; intros u Hs Hn Hu; [constructor|]. inversion Hs as [|? ? Hs' Hf]; subst. inversion Hn as [|? ? Hni Hn']; subst. constructor; [apply (Hu (k, m, i)); now left|].
  apply IH; auto. intros p Hp. rewrite Forall_forall in Hf. specialize (Hf p Hp). unfold le_by in Hf. cbn in Hf. apply Nat.ltb_ge in Hf.
  assert (snd p <> i) by (intros He; apply Hni; cbn; rewrite <- He; now apply in_map). lia.
Qed.

Lemma resolve_nodup w r t d ops : reachable E w -> w_type w r = Some t -> ops_fine E w d (t_dom t) ops ->
  forall l, resolve_ops E w d t ops = Ok l -> NoDup (map snd l).
Proof.
  intros Hr Ht (F1 & F2 & F3). induction ops as [|op ops IH]; intros l Hl; cbn [resolve_ops] in Hl; [injection Hl as <-; constructor|].
  assert (F1' : forall k nm, In (MInitName k nm) ops -> get_mixin_by_name E w d nm <> None) by (intros k nm Hx; apply (F1 k nm); now right).
  destruct (resolve_spec w d t ops F1') as (l2 & Hl2 & Hin2).
  assert (IH' : NoDup (map snd l2)).
  { apply IH; auto; [intros op' m Hin; apply F2; now right|]. intros i j a b m Hi Hj Ha Hb. specialize (F3 (S i) (S j) a b m Hi Hj Ha Hb). lia. }
  assert (F1h : forall k nm, In (MInitName k nm) [op] -> get_mixin_by_name E w d nm <> None) by (intros k nm [He|[]]; apply (F1 k nm); now left).
  destruct (resolve_op E w d t op) as [a|e|u] eqn:Ha; [|discriminate|discriminate]. cbn in Hl. rewrite Hl2 in Hl. injection Hl as <-. rewrite map_app.
  assert (Hhd : forall k m i, In (k, m, i) a -> op_mixin E w d op = Some m /\ index_of t (w_mid w m) = Some i).
  { intros k m i Hin. destruct (resolve_spec w d t [op] F1h) as (l3 & Hl3 & Hin3). cbn in Hl3. rewrite Ha in Hl3. cbn in Hl3. injection Hl3 as <-. rewrite app_nil_r in Hin3. apply Hin3 in Hin.
    destruct Hin as (op' & [<-|[]] & _ & B & C). auto. }
  assert (Hat : forall op0 m i, In op0 (op :: ops) -> op_mixin E w d op0 = Some m -> index_of t (w_mid w m) = Some i -> nth_error (t_mixins t) i = Some m).
  { intros op0 m i Hin Hop Hi. eapply (type_idx2 E w r t); eauto. }
  assert (Hna : NoDup (map snd a)).
  { destruct op as [|k m|k nm]; cbn [resolve_op] in Ha; [injection Ha as <-; constructor| |].
    - destruct (index_of t (w_mid w m)); injection Ha as <-; cbn; repeat constructor; auto.
    - destruct (get_mixin_by_name E w d nm) as [m|]; [|discriminate]. destruct (index_of t (w_mid w m)); injection Ha as <-; cbn; repeat constructor; auto. }
  assert (Hdis : forall i, In i (map snd a) -> ~ In i (map snd l2)).
  { intros i Hi1 Hi2. apply in_map_iff in Hi1, Hi2. destruct Hi1 as ([[k1 m1] i1] & <- & Hi1). destruct Hi2 as ([[k2 m2] i2] & He & Hi2). cbn in He. subst i2. cbn in *.
    destruct (Hhd k1 m1 i1 Hi1) as [B1 C1]. apply Hin2 in Hi2. destruct Hi2 as (op' & A2 & _ & B2 & C2).
    pose proof (Hat op m1 i1 (or_introl eq_refl) B1 C1). pose proof (Hat op' m2 i1 (or_intror A2) B2 C2). assert (m2 = m1) as -> by congruence.
    apply In_nth_error in A2. destruct A2 as (j & Hj). specialize (F3 0 (S j) op op' m1 eq_refl Hj B1 B2). lia. }
  clear - Hna IH' Hdis. induction (map snd a) as [|z za IHa]; auto. cbn. inversion Hna; subst. constructor.
  - rewrite in_app_iff. intros [Hz|Hz]; [auto|]. apply (Hdis z); auto. now left.
  - apply IHa; auto. intros i Hi. apply Hdis. now right.
Qed.

Lemma sort_ops_ok l : NoDup (map snd l) -> ascends 0 (sort_ops l) /\ (forall p, In p (sort_ops l) <-> In p l).
Proof.
  intros Hn. pose proof (sort_by_perm (fun a b : nat * mptr * nat => snd a <? snd b) l) as Hp. fold (sort_ops l) in Hp. split.
  - apply ascends_sorted.
    + apply (sort_by_sorted (fun a b : nat * mptr * nat => snd a <? snd b) (fun _ => True)).
      * intros a b _ _ H. apply Nat.ltb_lt in H. apply Nat.ltb_ge. lia.
      * intros a b c _ _ _ H1 H2. apply Nat.ltb_ge in H1, H2. apply Nat.ltb_ge. lia.
      * apply Forall_forall. auto.
    + eapply Permutation_NoDup; [apply Permutation_map, Permutation_sym, Hp|exact Hn].
    + intros p _. lia.
  - intros p. split; apply Permutation_in; auto. now apply Permutation_sym.
Qed.

(** The function used for index [i] is the one of the op for the mixin there. *)
Lemma ops_ov_gives w r t d ops l i m k : reachable E w -> w_type w r = Some t -> tgood E (w_mid w) t -> ops_fine E w d (t_dom t) ops -> resolve_ops E w d t ops = Ok l -> nth_error (t_mixins t) i = Some m ->
  (ops_ov (sort_ops l) i = Some k <-> op_gives E w d ops m k).
Proof.
  intros Hr Ht G F Hl Hm. destruct (resolve_spec w d t ops (proj1 F)) as (l' & Hl' & Hin). assert (l' = l) as -> by congruence. clear Hl'.
  pose proof (resolve_nodup w r t d ops Hr Ht F l Hl) as Hn. destruct (sort_ops_ok l Hn) as [_ Hso].
  assert (Hat : forall op0 m i, In op0 ops -> op_mixin E w d op0 = Some m -> index_of t (w_mid w m) = Some i -> nth_error (t_mixins t) i = Some m).
  { intros op0 m0 i0 H1 H2 H3. eapply (type_idx2 E w r t); eauto. eapply (proj1 (proj2 F)); eauto. }
  unfold ops_ov, op_gives. split.
  - destruct (find (fun p => snd p =? i) (sort_ops l)) as [[[k' m'] i']|] eqn:Hf; [|discriminate]. intros [= <-]. apply find_some in Hf. destruct Hf as [Hf1 Hf2]. cbn in Hf2. apply Nat.eqb_eq in Hf2. subst i'.
    apply Hso, Hin in Hf1. destruct Hf1 as (op & A & B & C & D). exists op. split; auto. split; auto. rewrite C. f_equal. pose proof (Hat op m' i A C D). congruence.
  - intros (op & A & B & C). assert (Hi : In (k, m, i) (sort_ops l)) by (apply Hso, Hin; exists op; repeat split; auto; eapply tg_idx; eauto).
    destruct (find (fun p => snd p =? i) (sort_ops l)) as [[[k' m'] i']|] eqn:Hf.
    + apply find_some in Hf. destruct Hf as [Hf1 Hf2]. cbn in Hf2. apply Nat.eqb_eq in Hf2. subst i'. cbn. f_equal.
      apply Hso in Hf1, Hi. clear - Hn Hf1 Hi. induction l as [|z l IH]; [destruct Hi|]. cbn in Hn. inversion Hn; subst. destruct Hi as [->|Hi], Hf1 as [Hf1|Hf1].
      * congruence.
      * exfalso. apply H1. change (snd (k, m, i)) with (snd (k', m', i)). now apply in_map.
      * subst z. exfalso. apply H1. change (snd (k', m', i)) with (snd (k, m, i)). now apply in_map.
      * now apply IH.
    + exfalso. apply (find_none _ _ Hf) in Hi. cbn in Hi. now rewrite Nat.eqb_refl in Hi.
Qed.

(** ** mutate_to *)
Inductive to_out (s : st) (o : nat) (x : obj) (r : tref) (ops : list mop) (unw : bool) (s' : st) : res unit -> Prop :=
| tt_none res : ops = [] -> reset_out E U s o x r unw s' res -> to_out s o x r ops unw s' res
| tt_same : ops <> [] -> o_type x = Some r -> s' = s -> to_out s o x r ops unw s' (Ok tt)
| tt_sealed : ops <> [] -> o_type x <> Some r -> o_sealed x = true -> s' = s -> to_out s o x r ops unw s' (Throw ESealed)
| tt_perf q t0 t l res : ops <> [] -> o_type x = Some q -> w_type (s_w s) q = Some t0 -> q <> r -> o_sealed x = false -> w_type (s_w s) r = Some t -> t_mixins t <> [] -> fits s x t ->
    ops_fine E (s_w s) (t_dom t0) (t_dom t) ops -> resolve_ops E (s_w s) (t_dom t0) t ops = Ok l ->
    outcome E U s o x r t (fun _ => ov_new E t (ops_ov (sort_ops l))) (up_com none) False unw s' res -> to_out s o x r ops unw s' res.

Lemma outcome_not_ub s o x r t np cp ord unw s' res : s_obj s o = Some x -> outcome E U s o x r t np cp ord unw s' res -> ~ is_ub res.
Proof. intros Ho H. apply (outcome_obj E U s o x r t np cp ord unw s' res Ho) in H. destruct res; auto. Qed.
Lemma reset_not_ub s o x r unw s' res : s_obj s o = Some x -> reset_out E U s o x r unw s' res -> ~ is_ub res.
Proof. intros Ho H. apply (reset_obj E U s o x r unw s' res Ho) in H. destruct res; auto. Qed.

Lemma act_to s o x r ops unw : Inv s -> typed s -> s_obj s o = Some x -> o_type x <> None -> may_become s o r ->
  (ops <> [] -> not_to_empty s o r /\ forall d t, object_domain s o d -> w_type (s_w s) r = Some t -> ops_fine E (s_w s) d (t_dom t) ops) ->
  exists s' res, mutate_to E U unw o r ops s = (s', res) /\ ~ is_ub res /\ to_out s o x r ops unw s' res /\ Inv s' /\ typed s'.
Proof.
  intros I Ty Ho Hxt Hm Hops. unfold mutate_to. assert (Hcase : ops = [] \/ ops <> []) by (destruct ops; [now left|right; discriminate]). destruct Hcase as [->|Hne].
  { destruct (act_reset E U AM s o x r unw I Ty Ho (fun _ => Hxt) Hm) as (s' & res & H1 & H2 & H3 & H4). exists s', res. split; auto. split; [eapply reset_not_ub; eauto|]. split; auto. now apply tt_none. }
  destruct (Hops Hne) as [Hnte Hfine]. destruct (may_fits s o x r Ho Hm) as (t & Ht & Hf). destruct (the_type_ok E s o x I Ty Ho Hxt) as (q & t0 & Hq & Ht0 & Hx1).
  assert (Hred : match ops with [] => reset_type E U unw o r | _ :: _ => let* x := get_obj o in let* xt := the_type x in if tref_eqb (fst xt) r then ret tt else let* t := get_ty r in
      let* l := (fun s => (s, resolve_ops E (s_w s) (t_dom (snd xt)) t ops)) in perform E U unw o r (ops_loop E U (sort_ops l)) end s =
    (if tref_eqb q r then ret tt else let* t := get_ty r in let* l := (fun s => (s, resolve_ops E (s_w s) (t_dom t0) t ops)) in perform E U unw o r (ops_loop E U (sort_ops l))) s).
  { destruct ops as [|op0 ops0]; [congruence|]. rewrite (bnd_ok _ _ _ _ _ (get_obj_step s o x Ho)), (bnd_ok _ _ _ _ _ Hx1). reflexivity. }
  rewrite Hred. clear Hred. destruct (tref_eqb_spec q r) as [->|Hqr].
  { exists s, (Ok tt). split; [reflexivity|]. split; auto. split; auto. now apply tt_same. }
  assert (Hfi : ops_fine E (s_w s) (t_dom t0) (t_dom t) ops) by (apply Hfine; auto; exists q, t0; split; auto; exists x; auto).
  rewrite (bnd_ok _ _ _ _ _ (get_ty_step s r t Ht)). destruct (resolve_spec (s_w s) (t_dom t0) t ops (proj1 Hfi)) as (l & Hl & Hin).
  rewrite (bnd_ok (fun s => (s, resolve_ops E (s_w s) (t_dom t0) t ops)) _ s s l) by (now rewrite Hl).
  assert (Hnr : o_type x <> Some r) by congruence.
  destruct (o_sealed x) eqn:Hse.
  { rewrite (perform_sealed E U s o x r t _ unw Ho Hse Ht) by (now rewrite Hq, Ht0). exists s, (Throw ESealed). split; auto. split; auto. split; auto. now apply tt_sealed. }
  destruct (sort_ops_ok l (resolve_nodup (s_w s) r t (t_dom t0) ops (iv_reach _ _ I) Ht Hfi l Hl)) as [Hasc Hso].
  destruct (perform_inv E U AM s o x r t (fun _ => ov_new E t (ops_ov (sort_ops l))) (up_com none) False unw (ops_loop E U (sort_ops l)) I Ty Ho Ht Hf (not_empty_or s o x r t Ho Ht Hnte)) as (s' & res & H1 & H2 & H3 & H4).
  - intros old r0 t1 ddo SU H0. split; [apply plan_ov|]. eapply body_ops_loop; eauto. intros k m i Hi. apply Hso, Hin in Hi. destruct Hi as (op & A & B & C & D).
    eapply (type_idx2 E (s_w s) r t); eauto; [apply (iv_reach _ _ I)|]. eapply (proj1 (proj2 Hfi)); eauto.
  - exists s', res. split; auto. split; [eapply outcome_not_ub; eauto|]. split; auto. eapply tt_perf; eauto. destruct (not_empty_or s o x r t Ho Ht Hnte); congruence.
Qed.

(** ** The type of a mutation *)
Inductive made (s : st) (d : dptr) (s1 : st) : res tref -> Prop :=
| md_throw e : s1 = s -> made s d s1 (Throw e)
| md_ok r t : s1 = set_w s (s_w s1) -> busy_same (s_w s) (s_w s1) -> same_elems (s_w s) (s_w s1) -> w_type (s_w s1) r = Some t -> t_dom t = d -> made s d s1 (Ok r).

Lemma act_made s o aok b f q t : Inv s -> typed s -> type_of s o q t -> can_mutate E s o aok b f ->
  exists s1 res, mutated_type E aok t f s = (s1, res) /\ ~ is_ub res /\ made s (t_dom t) s1 res /\ Inv s1 /\ typed s1 /\ (b = false -> forall r, res = Ok r -> not_to_empty s1 o r) /\
    (forall l, f (get_mixin_by_name E (s_w s) (t_dom t)) (t_mixins t) = Ok l -> (s_w s1, res) = get_type_mut E aok (s_w s) (t_dom t) (t_dom t) l).
Proof.
  intros I Ty Hto Hcan. destruct (mutated_type E aok t f s) as [s1 res] eqn:Hm. destruct (Hcan q t s1 res Hto Hm) as (Hub & Hsm & Hem). exists s1, res. split; auto. split; auto.
  unfold mutated_type in Hm. unfold bnd in Hm. destruct (f (get_mixin_by_name E (s_w s) (t_dom t)) (t_mixins t)) as [l|e|u]; [|injection Hm as <- <-|injection Hm as <- <-; destruct Hub; exact Logic.I].
  2:{ split; [now constructor|]. split; auto. split; auto. split; [intros _ r Hr; discriminate|discriminate]. }
  unfold on_world in Hm. injection Hm as <- <-. cbn [set_w s_w] in *. destruct (get_type_mut E aok (s_w s) (t_dom t) (t_dom t) l) as [w1 res] eqn:Hg. cbn [fst snd] in *.
  pose proof (same_elems_get_type_mut E aok (s_w s) (t_dom t) (t_dom t) l) as Hse. rewrite Hg in Hse. cbn in Hse. pose proof (iv_reach _ _ I) as Hr.
  pose proof (get_type_busy E aok (s_w s) (t_dom t) l Hr) as Hb. rewrite <- get_type_mut_same, Hg in Hb. cbn in Hb.
  assert (Hr1 : reachable E w1).
  { eapply (reach_step E (s_w s) (DGetTypeMut (t_dom t) (t_dom t) l aok) w1 (match res with Ok r => Ok (Some r) | Throw e => Throw e | Ub u => Ub u end)); auto.
    - cbn. unfold retty. rewrite Hg. reflexivity.
    - destruct res; auto. }
  assert (I1 : Inv (set_w s w1)) by (apply inv_world; auto). assert (Ty1 : typed (set_w s w1)) by (intros o' x'; apply Ty). split.
  - destruct res as [r|e|u]; [| |destruct Hub; exact Logic.I].
    + rewrite get_type_mut_same in Hg. destruct (get_type_has_type E aok _ _ _ _ _ Hr Hg) as (t1 & Ht1 & Hd1). apply md_ok with (t := t1); auto. destruct Hd1 as [->|Hin].
      * destruct (type_empty E w1 (t_dom t) Hr1) as (k & Hk). assert (t1 = set_nobj (empty_type (t_dom t)) k) as -> by congruence. reflexivity.
      * destruct (winv_reachable _ _ Hr1) as [_ HT]. destruct (ti_types _ _ HT _ _ Hin) as (n & t2 & _ & _ & Ht2 & Hok). assert (t2 = t1) as -> by congruence. apply Hok.
    + pose proof (c19_mut E _ _ _ _ _ _ _ Hg) as ->. constructor. destruct s; reflexivity.
  - split; auto. split; auto. split; auto. now intros l' [= ->].
Qed.

(** After a change of types the object is as before, and its type too *)
Lemma made_type s d s1 res o x q t : made s d s1 res -> Inv s -> typed s -> s_obj s o = Some x -> o_type x = Some q -> w_type (s_w s) q = Some t ->
  s_obj s1 o = Some x /\ w_type (s_w s1) q = Some t.
Proof.
  intros Hm I Ty Ho Hq Ht. destruct Hm as [e ->|r t1 Hs Hb _ _ _]; auto. rewrite Hs. split; auto. cbn [set_w s_w]. apply Hb; auto.
  destruct (o_data x) as [b|] eqn:Hd; [left; eapply nobj_pos; eauto|]. right. pose proof (Ty o x Ho Hd) as Hx. rewrite Hq in Hx. destruct q as [d'|n]; [eauto|destruct Hx].
Qed.
Lemma made_becomes s o x q t s1 r : made s (t_dom t) s1 (Ok r) -> Inv s -> typed s -> s_obj s o = Some x -> o_type x = Some q -> w_type (s_w s) q = Some t -> may_become s1 o r.
Proof.
  intros Hm I Ty Ho Hq Ht. destruct (made_type s _ s1 _ o x q t Hm I Ty Ho Hq Ht) as [Ho1 Ht1]. inversion Hm as [|r' t1 Hs Hb Hse Hr Hd]; subst. exists x, t1. split; auto. split; auto.
  intros _ q' t' Hq' Ht'. congruence.
Qed.

Inductive mutate_out (s : st) (o : nat) (x : obj) (t : type_rec) (ops : list mop) (unw : bool) (s1 : st) (tres : res tref) (s' : st) : res unit -> Prop :=
| mu_throw e : tres = Throw e -> s1 = s -> s' = s -> mutate_out s o x t ops unw s1 tres s' (Throw e)
| mu_to r res : tres = Ok r -> made s (t_dom t) s1 (Ok r) -> Inv s1 -> typed s1 -> s_obj s1 o = Some x -> to_out s1 o x r ops unw s' res -> mutate_out s o x t ops unw s1 tres s' res.

Lemma same_elems_name w w' d nm : same_elems w w' -> get_mixin_by_name E w' d nm = get_mixin_by_name E w d nm.
Proof. intros (_ & _ & _ & H). unfold get_mixin_by_name. now rewrite (proj1 (H d)). Qed.
Lemma ops_fine_elems w w' d dt ops : same_elems w w' -> ops_fine E w d dt ops -> ops_fine E w' d dt ops.
Proof.
  intros Hs (F1 & F2 & F3). assert (Hop : forall op, op_mixin E w' d op = op_mixin E w d op) by (intros [|k m|k nm]; cbn; auto; now apply same_elems_name).
  destruct (Hs) as (_ & Hd & _). split; [|split].
  - intros k nm Hin. rewrite (same_elems_name _ _ _ _ Hs). eauto.
  - intros op m Hin. rewrite Hop, Hd. eauto.
  - intros i j a b m Hi Hj. rewrite !Hop. eauto.
Qed.

Lemma act_mutate s o x q t ops unw aok : Inv s -> typed s -> s_obj s o = Some x -> o_type x = Some q -> w_type (s_w s) q = Some t -> ops <> [] ->
  can_mutate E s o aok false (fun lk => apply_mutops E lk ops) -> (forall d, object_domain s o d -> ops_fine E (s_w s) d d (map mop_of ops)) ->
  exists s1 tres s' res, mutated_type E aok t (fun lk => apply_mutops E lk ops) s = (s1, tres) /\ mutate E U unw aok o ops s = (s', res) /\ ~ is_ub res /\ mutate_out s o x t (map mop_of ops) unw s1 tres s' res /\ Inv s' /\ typed s'.
Proof.
  intros I Ty Ho Hq Ht Hne Hcan Hfine. unfold mutate. rewrite (bnd_ok _ _ _ _ _ (get_obj_step s o x Ho)), (bnd_ok _ _ _ _ _ (the_type_step s x q t Hq Ht)). cbn [snd].
  assert (Hto : type_of s o q t) by (exists x; auto). destruct (act_made s o aok false _ q t I Ty Hto Hcan) as (s1 & tres & H1 & Hub & Hm & I1 & Ty1 & Hem & _). exists s1, tres.
  destruct tres as [r|e|u]; [| |destruct Hub; exact Logic.I].
  - rewrite (bnd_ok _ _ _ _ _ H1). destruct (made_type s _ s1 _ o x q t Hm I Ty Ho Hq Ht) as [Ho1 Ht1].
    destruct (act_to s1 o x r (map mop_of ops) unw I1 Ty1 Ho1) as (s' & res & H2 & Hub2 & H3 & I2 & Ty2); [congruence|eapply made_becomes; eauto| |].
    + intros _. split; [now apply (Hem eq_refl)|]. intros d t1 (q' & t' & (x' & A1 & A2 & A3) & <-) Hr1. assert (x' = x) as -> by congruence. assert (q' = q) as -> by congruence. assert (t' = t) as -> by congruence.
      inversion Hm as [|r' t2 Hs Hb Hse Hr Hd]; subst. assert (t1 = t2) as -> by congruence. rewrite Hd. eapply ops_fine_elems; [exact Hse|]. apply Hfine. exists q, t. auto.
    + exists s', res. split; auto. split; auto. split; auto. split; auto. eapply mu_to; eauto.
  - rewrite (bnd_throw _ _ _ _ _ H1). inversion Hm; subst. exists s, (Throw e). split; auto. split; auto. split; auto. split; auto. now apply mu_throw.
Qed.

Inductive gradual_out (s : st) (o : nat) (x : obj) (t : type_rec) (unw : bool) (s1 : st) (tres : res tref) (s' : st) : res unit -> Prop :=
| gr_unw res : unw = true -> ~ is_ub res -> s' = s -> gradual_out s o x t unw s1 tres s' res
| gr_throw e : unw = false -> tres = Throw e -> s1 = s -> s' = s -> gradual_out s o x t unw s1 tres s' (Throw e)
| gr_to r res : unw = false -> tres = Ok r -> made s (t_dom t) s1 (Ok r) -> Inv s1 -> typed s1 -> s_obj s1 o = Some x -> reset_out E U s1 o x r false s' res -> gradual_out s o x t unw s1 tres s' res.
Lemma act_gradual s o x q t ops unw aok : Inv s -> typed s -> s_obj s o = Some x -> o_type x = Some q -> w_type (s_w s) q = Some t ->
  can_mutate E s o aok true (fun lk => apply_gops E lk ops) ->
  exists s1 tres s' res, mutated_type E aok t (fun lk => apply_gops E lk ops) s = (s1, tres) /\ gradual E U unw aok o ops s = (s', res) /\ ~ is_ub res /\ gradual_out s o x t unw s1 tres s' res /\ Inv s' /\ typed s'.
Proof.
  intros I Ty Ho Hq Ht Hcan. unfold gradual. rewrite (bnd_ok _ _ _ _ _ (get_obj_step s o x Ho)), (bnd_ok _ _ _ _ _ (the_type_step s x q t Hq Ht)). cbn [snd].
  assert (Hto : type_of s o q t) by (exists x; auto). destruct (act_made s o aok true _ q t I Ty Hto Hcan) as (s1 & tres & H1 & Hub & Hm & I1 & Ty1 & Hem & _). exists s1, tres. destruct unw.
  - eexists. eexists. split; auto. split; [reflexivity|]. assert (Hu : ~ is_ub (do _ <- apply_gops E (get_mixin_by_name E (s_w s) (t_dom t)) ops (t_mixins t); Ok tt)).
    { unfold mutated_type, bnd in H1. destruct (apply_gops E (get_mixin_by_name E (s_w s) (t_dom t)) ops (t_mixins t)) as [l|e|u]; cbn; auto. injection H1 as _ <-. exact Hub. }
    split; auto. split; auto. now apply gr_unw.
  - destruct tres as [r|e|u]; [| |destruct Hub; exact Logic.I].
    + rewrite (bnd_ok _ _ _ _ _ H1). destruct (made_type s _ s1 _ o x q t Hm I Ty Ho Hq Ht) as [Ho1 Ht1].
      destruct (act_reset E U AM s1 o x r false I1 Ty1 Ho1) as (s' & res & H2 & H3 & I2 & Ty2); [congruence|eapply made_becomes; eauto|].
      exists s', res. split; auto. split; auto. split; [eapply reset_not_ub; eauto|]. split; auto. eapply gr_to; eauto.
    + rewrite (bnd_throw _ _ _ _ _ H1). inversion Hm; subst. exists s, (Throw e). split; auto. split; auto. split; auto. split; auto. now apply gr_throw.
Qed.

(** ** The C functions and piecewise mutations *)
Lemma act_c_to s o x r cs unw : Inv s -> typed s -> s_obj s o = Some x -> may_become s o r -> not_to_empty s o r ->
  exists s' res t, c_mutate_to E U unw o r cs s = (s', res) /\ w_type (s_w s) r = Some t /\ fits s x t /\ outcome E U s o x r t (fun _ => ov_new E t (cover_ov E t cs)) (up_com (cover_up E t cs)) False unw s' res /\ Inv s' /\ typed s'.
Proof.
  intros I Ty Ho Hm Hnte. destruct (may_fits s o x r Ho Hm) as (t & Ht & Hf). unfold c_mutate_to. rewrite (bnd_ok _ _ _ _ _ (get_ty_step s r t Ht)).
  destruct (perform_inv E U AM s o x r t (fun _ => ov_new E t (cover_ov E t cs)) (up_com (cover_up E t cs)) False unw (cover_loop E U cs (enumerate 0 (t_mixins t))) I Ty Ho Ht Hf (not_empty_or s o x r t Ho Ht Hnte)) as (s' & res & H1 & H2 & H3 & H4).
  - intros old r0 t1 ddo SU H0. split; [apply plan_ov|]. eapply body_cover; eauto.
  - exists s', res, t. auto 10.
Qed.
Lemma act_pieces s o x r ps unw : Inv s -> typed s -> s_obj s o = Some x -> may_become s o r -> not_to_empty s o r -> (forall t, w_type (s_w s) r = Some t -> steps_fine (length (t_mixins t)) ps) ->
  exists s' res t, piecewise E U unw o r ps s = (s', res) /\ w_type (s_w s) r = Some t /\ fits s x t /\ outcome E U s o x r t (fun _ => ov_new E t (steps_ov t ps 0)) (up_com (steps_ov t ps 0)) (~ in_order t ps 0) unw s' res /\ Inv s' /\ typed s'.
Proof.
  intros I Ty Ho Hm Hnte Hps. destruct (may_fits s o x r Ho Hm) as (t & Ht & Hf). unfold piecewise.
  destruct (perform_inv E U AM s o x r t (fun _ => ov_new E t (steps_ov t ps 0)) (up_com (steps_ov t ps 0)) (~ in_order t ps 0) unw (run_psteps E U ps) I Ty Ho Ht Hf (not_empty_or s o x r t Ho Ht Hnte)) as (s' & res & H1 & H2 & H3 & H4).
  - intros old r0 t1 ddo SU H0. split; [apply plan_ov|]. eapply body_steps; eauto. specialize (Hps t Ht). apply forallb_forall. intros p Hp. specialize (Hps p Hp). destruct p; cbn; auto; try tauto; apply negb_true_iff; now apply Nat.eqb_neq.
  - exists s', res, t. auto 10.
Qed.

Inductive cmutate_out (s : st) (o : nat) (x : obj) (t : type_rec) (cs : list cop) (unw : bool) (s1 : st) (tres : res tref) (s' : st) : res unit -> Prop :=
| cc_throw e : tres = Throw e -> s1 = s -> s' = s -> cmutate_out s o x t cs unw s1 tres s' (Throw e)
| cc_to r t1 res : tres = Ok r -> made s (t_dom t) s1 (Ok r) -> Inv s1 -> typed s1 -> s_obj s1 o = Some x -> w_type (s_w s1) r = Some t1 -> fits s1 x t1 ->
    outcome E U s1 o x r t1 (fun _ => ov_new E t1 (cop_ov E t1 cs)) (up_com none) False unw s' res -> cmutate_out s o x t cs unw s1 tres s' res.
Lemma act_c_mutate s o x q t cs unw aok : Inv s -> typed s -> s_obj s o = Some x -> o_type x = Some q -> w_type (s_w s) q = Some t ->
  can_mutate E s o aok false (fun lk => apply_cops E lk cs) ->
  exists s1 tres s' res, mutated_type E aok t (fun lk => apply_cops E lk cs) s = (s1, tres) /\ c_mutate E U unw aok o cs s = (s', res) /\ ~ is_ub res /\ cmutate_out s o x t cs unw s1 tres s' res /\ Inv s' /\ typed s'.
Proof.
  intros I Ty Ho Hq Ht Hcan. unfold c_mutate. rewrite (bnd_ok _ _ _ _ _ (get_obj_step s o x Ho)), (bnd_ok _ _ _ _ _ (the_type_step s x q t Hq Ht)). cbn [snd].
  assert (Hto : type_of s o q t) by (exists x; auto). destruct (act_made s o aok false _ q t I Ty Hto Hcan) as (s1 & tres & H1 & Hub & Hm & I1 & Ty1 & Hem & _). exists s1, tres.
  destruct tres as [r|e|u]; [| |destruct Hub; exact Logic.I].
  - rewrite (bnd_ok _ _ _ _ _ H1). destruct (made_type s _ s1 _ o x q t Hm I Ty Ho Hq Ht) as [Ho1 Ht1].
    assert (Hb : may_become s1 o r) by (eapply made_becomes; eauto). destruct (may_fits s1 o x r Ho1 Hb) as (t1 & Ht1' & Hf). rewrite (bnd_ok _ _ _ _ _ (get_ty_step s1 r t1 Ht1')).
    destruct (perform_inv E U AM s1 o x r t1 (fun _ => ov_new E t1 (cop_ov E t1 cs)) (up_com none) False unw (cop_loop E U cs (enumerate 0 (t_mixins t1))) I1 Ty1 Ho1 Ht1' Hf (not_empty_or s1 o x r t1 Ho1 Ht1' (Hem eq_refl r eq_refl))) as (s' & res & H2 & H3 & I2 & Ty2).
    + intros old r0 t2 ddo SU H0. split; [apply plan_ov|]. eapply body_cop; eauto.
    + exists s', res. split; auto. split; auto. split; [eapply outcome_not_ub; eauto|]. split; auto. eapply cc_to; eauto.
  - rewrite (bnd_throw _ _ _ _ _ H1). inversion Hm; subst. exists s, (Throw e). split; auto. split; auto. split; auto. split; auto. now apply cc_throw.
Qed.

(** ** Every fair call *)
Lemma act_any s op : Inv s -> typed s -> fair E s op -> exists s' r, op_run E U op s = (s', r) /\ ~ is_ub r /\ Inv s' /\ typed s'.
Proof.
  intros I Ty F. destruct op; cbn [op_run fair] in *.
  - destruct (act_empty E s o d a I Ty F) as (H1 & H2 & H3). eauto 10.
  - destruct F as [F1 F2]. destruct (act_new E U AM s o r a sealed unw I Ty F1 F2) as (s' & res & H1 & H2 & H3). exists s', res. split; auto. split; auto. destruct H2; auto.
  - destruct F as [F1 (y & F2 & F3)]. destruct (the_type_ok E s src y I Ty F2 F3) as (r & t & Hr & Ht & _). destruct (act_moved E AM s o src y r t I Ty F1 F2 Hr Ht) as (s' & H1 & _ & H2). eauto 10.
  - destruct (s_obj s o) as [x|] eqn:Ho; [|congruence]. destruct (act_dtor E AM s o x I Ty Ho) as (s' & H1 & _ & H2). eauto 10.
  - destruct F as [(x & F1 & F2) (y & F3 & F4)]. destruct (act_move E AM s o x src y I Ty F1 F2 F3 F4) as (s' & res & H1 & H2 & H3). exists s', res. split; auto. split; auto. destruct H2; auto.
  - destruct F as [F1 F2]. destruct (s_obj s src) as [y|] eqn:Hy; [|congruence]. destruct (act_copy E U AM s o src y a unw I Ty F1 Hy) as (s' & res & H1 & H2 & H3). exists s', res. split; auto. split; auto. destruct H2; auto.
  - destruct F as [(x & F1 & F2) (F3 & F4)]. destruct (s_obj s src) as [y|] eqn:Hy; [|congruence]. destruct (act_from E U AM s o x src y unw I Ty F1 F2 Hy F4) as (s' & res & H1 & H2 & H3). exists s', res. split; auto. split; auto.
    destruct H2; auto. eapply (outcome_not_ub s o x); eauto.
  - destruct F as [(x & F1 & F2) [(y & F3 & F4) F5]]. destruct (act_cmatch E U AM s o x src y I Ty F1 F2 F3 F4 F5) as (s' & res & H1 & H2 & _ & H3). eauto 10.
  - destruct F as [(x & F1 & F2) [(y & F3 & F4) [F5 F6]]]. destruct (act_mmatch E U AM s fb o x src y I Ty F1 F2 F3 F4 F5 F6) as (s' & res & H1 & H2 & _ & H3). eauto 10.
  - destruct F as (x & F1 & F2). destruct (the_type_ok E s o x I Ty F1 F2) as (r & t & Hr & Ht & _). destruct (act_clear E AM s o x r t I Ty F1 Hr Ht) as [(_ & H1)|(_ & s' & H1 & _ & H2)]; eauto 10.
  - destruct F as [(x & F1 & F2) F3]. destruct (act_reset E U AM s o x r unw I Ty F1 (fun _ => F2) F3) as (s' & res & H1 & H2 & H3). exists s', res. split; auto. split; auto. eapply reset_not_ub; eauto.
  - destruct (s_obj s o) as [x|] eqn:Ho; [|congruence]. destruct (act_seal E s o x I Ty Ho) as (H1 & H2 & H3). eauto 10.
  - destruct F as [(x & F1 & F2) (F3 & F4)]. destruct (act_to s o x r ops unw I Ty F1 F2 F3 F4) as (s' & res & H1 & H2 & _ & H3). eauto 10.
  - destruct F as [(x & F1 & F2) (F3 & F4 & F5)]. destruct (the_type_ok E s o x I Ty F1 F2) as (r & t & Hr & Ht & _). destruct (act_mutate s o x r t ops unw aok I Ty F1 Hr Ht F3 F4 F5) as (s1 & tres & s' & res & _ & H1 & H2 & _ & H3). eauto 10.
  - destruct F as [(x & F1 & F2) F3]. destruct (the_type_ok E s o x I Ty F1 F2) as (r & t & Hr & Ht & _). destruct (act_gradual s o x r t ops unw aok I Ty F1 Hr Ht F3) as (s1 & tres & s' & res & _ & H1 & H2 & _ & H3). eauto 10.
  - destruct F as [(x & F1 & F2) (F3 & F4)]. destruct (act_c_to s o x r cs unw I Ty F1 F3 F4) as (s' & res & t & H1 & _ & _ & H2 & H3). exists s', res. split; auto. split; auto. eapply outcome_not_ub; eauto.
  - destruct F as [(x & F1 & F2) F3]. destruct (the_type_ok E s o x I Ty F1 F2) as (r & t & Hr & Ht & _). destruct (act_c_mutate s o x r t cs unw aok I Ty F1 Hr Ht F3) as (s1 & tres & s' & res & _ & H1 & H2 & _ & H3). eauto 10.
  - destruct F as [(x & F1 & F2) (F3 & F4 & F5)]. destruct (act_pieces s o x r ps unw I Ty F1 F3 F4 F5) as (s' & res & t & H1 & _ & _ & H2 & H3). exists s', res. split; auto. split; auto. eapply outcome_not_ub; eauto.
  - destruct F as (F1 & F2 & F3). unfold on_world. unfold bnd. destruct (dstep E (s_w s) op) as [w1 res] eqn:Hd. cbn [fst snd] in *. pose proof (iv_reach _ _ I) as Hr.
    assert (Hr1 : reachable E w1) by (eapply reach_step; eauto). assert (Hb : busy_same (s_w s) w1) by (eapply dstep_busy; eauto; destruct op; auto).
    assert (I1 : Inv (set_w s w1)) by (apply inv_world; auto). assert (Ty1 : typed (set_w s w1)) by (intros o' x'; apply Ty).
    destruct res as [z|e|u]; [exists (set_w s w1), (Ok tt)|exists (set_w s w1), (Throw e)|destruct F2; exact Logic.I]; auto.
  - destruct F as (x & F1 & F2). destruct (act_use E U s o x i k I Ty F1 F2) as (s' & res & H1 & H2 & _ & H3). eauto 10.
Qed.

Lemma inv_init : Inv (init_st E) /\ typed (init_st E).
Proof.
  split; [|intros o x H; discriminate]. constructor; try discriminate.
  - exists []. constructor.
  - intros r t H. cbn in H. destruct r as [d|n]; [|discriminate]. injection H as <-. cbn. reflexivity.
  - intros o o' c (x & b & q & t & H & _). discriminate.
  - intros c H. destruct (H eq_refl).
  - intros c _. reflexivity.
  - intros r t H. cbn in H. destruct r as [d|n]; [|discriminate]. injection H as <-. exists []. split; [constructor|]. split; auto. intros o. split; [intros []|intros (x & b & Hx & _); discriminate].
Qed.

Lemma history_inv tr s : history E U tr s -> Inv s /\ typed s.
Proof.
  induction 1 as [|tr s op r s' H [I Ty] F Hrun Hub]; [apply inv_init|]. destruct (act_any s op I Ty F) as (s2 & r2 & H1 & H2 & H3). rewrite Hrun in H1. injection H1 as <- <-. exact H3.
Qed.
End Act3.
