(** Proofs about the C interface: results, questions, type mutations *)
From Coq Require Import List Arith ZArith NArith Lia Bool.
From Verif Require Import Base Sv BaseLemmas Info TypeMut TypeBuild TypeQuery Domain SpecList RuleTheorems3 Heap Mutation Object SpecObj CApi SpecC CProofs.
Import ListNotations.

Section C.
Variable E : env.
Variable U : user.

Lemma c70_answers c x c' out op : c_run E U c x = (c', out) -> cpp_of c x = Some op -> snd (op_run E U op (cs_s c)) = Ok tt -> exists v, out = CRet v /\ answer x v.
Proof.
  intros H Hop Hr.
  assert (G : forall good bad, guarded E U c op good bad = (c', out) -> out = CRet good).
  { intros good bad. unfold guarded. destruct (op_run E U op (cs_s c)) as [s' r]. cbn in Hr. subst r. intros X. now injection X. }
  assert (GU : forall good, unguarded E U c op good = (c', out) -> out = CRet good).
  { intros good. unfold unguarded. destruct (op_run E U op (cs_s c)) as [s' r]. cbn in Hr. subst r. intros X. now injection X. }
  destruct x; cbn [c_run cpp_of] in *; try discriminate Hop;
    try (injection Hop as <-; (apply G in H || apply GU in H); subst; eexists; split; [reflexivity|reflexivity]).
  all: try (destruct nok; [|discriminate Hop]; injection Hop as <-; (apply G in H); subst; eexists; split; [reflexivity|reflexivity]).
  - destruct (s_obj (cs_s c) o) as [y|]; [|discriminate Hop]. destruct (o_sealed y); [discriminate Hop|]. injection Hop as <-. apply GU in H. subst. eexists. split; reflexivity.
  - destruct t as [t|]; injection Hop as <-; (apply G in H || apply GU in H); subst; eexists; (split; [reflexivity|reflexivity]).
  - injection Hop as <-. apply GU in H. subst out. eexists. split; reflexivity.
  - injection Hop as <-. rewrite op_run_dom in Hr. cbn [snd] in Hr. unfold guarded_type in H. pose proof (get_type_some E (s_w (cs_s c)) d q aok) as Hn.
    destruct (dstep E (s_w (cs_s c)) (DGetType d q aok)) as [w [[t|]|e|u]]; cbn in *; try discriminate Hr; try congruence. injection H as _ <-. eexists. split; [reflexivity|eexists; reflexivity].
  - destruct (cs_tm c h) as [[dm q]|]; [|discriminate Hop]. injection Hop as <-. rewrite op_run_dom in Hr. cbn [snd] in Hr. unfold guarded_type in H. pose proof (get_type_mut_some E (s_w (cs_s c)) d dm q aok) as Hn. cbn [with_tm cs_s] in H.
    destruct (dstep E (s_w (cs_s c)) (DGetTypeMut d dm q aok)) as [w [[t|]|e|u]]; cbn in *; try discriminate Hr; try congruence. injection H as _ <-. eexists. split; [reflexivity|eexists; reflexivity].
Qed.

Lemma c70_types c c' out aok d q t : c_run E U c (CGetTypeInfos aok d q) = (c', out) ->
  (out = CRet (CType (Some t)) <-> dstep E (s_w (cs_s c)) (DGetType d q aok) = (s_w (cs_s c'), Ok (Some t))).
Proof.
  cbn [c_run]. unfold guarded_type. destruct (dstep E (s_w (cs_s c)) (DGetType d q aok)) as [w [r|e|u]]; intros H; injection H as <- <-; cbn; split; intros X.
  - injection X as ->. reflexivity.
  - congruence.
  - discriminate X.
  - congruence.
  - discriminate X.
  - congruence.
Qed.

Lemma c70_compare c o o' c' out : c_run E U c (CCompare o o') = (c', out) ->
  (forall z, out = CRet (CInt (Some z)) <-> compare E U (cs_s c) o o' = Ok z) /\ (out = CRet (CInt None) <-> exists e, compare E U (cs_s c) o o' = Throw e).
Proof.
  cbn [c_run]. destruct (compare E U (cs_s c) o o') as [z|e|u]; intros H; injection H as _ <-; (split; [intros z'|]); split; intros X; try discriminate X; try congruence; try (destruct X; congruence).
  now exists e.
Qed.
Lemma c70_is_of c t nm c' out ty : w_type (s_w (cs_s c)) t = Some ty -> c_run E U c (CIsOf t nm) = (c', out) ->
  let r := TypeQuery.is_of E ty (get_type_class E (s_w (cs_s c)) (t_dom ty) nm) in
  (out = CRet (CCode true) <-> r = Ok true) /\ (out = CRet (CCode false) <-> r = Ok false \/ exists e, r = Throw e).
Proof.
  intros Ht. cbn [c_run]. rewrite Ht. cbn zeta. destruct (TypeQuery.is_of E ty _) as [b|e|u]; intros H; injection H as _ <-; split; split; intros X; try discriminate X; try congruence; eauto; try (left; congruence).
  - destruct X as [X|[e X]]; [congruence|discriminate X].
  - destruct X as [X|[e X]]; discriminate X.
Qed.

Lemma in_split_first (m : mptr) l : In m l -> exists l1 l2, l = l1 ++ m :: l2 /\ ~ In m l1.
Proof.
  induction l as [|x l IH]; intros H; [destruct H|]. destruct (Nat.eq_dec x m) as [->|Hn]; [exists [], l; auto|]. destruct H as [H|H]; [congruence|]. destruct (IH H) as (l1 & l2 & -> & Hni). exists (x :: l1), l2. split; auto. intros [A|A]; auto.
Qed.
Lemma named_split_first nm l : (forall x, In x l -> ~ named E nm x) \/ exists l1 m l2, l = l1 ++ m :: l2 /\ named E nm m /\ forall x, In x l1 -> ~ named E nm x.
Proof.
  induction l as [|x l IH]; [left; intros x []|]. assert (D : named E nm x \/ ~ named E nm x) by (unfold named; destruct (list_eq_dec N.eq_dec (sv_bytes (m_name (e_mixin E x))) nm); auto).
  destruct D as [D|D]; [right; exists [], x, l; split; auto; split; auto; intros y []|]. destruct IH as [IH|(l1 & m & l2 & -> & A & B)].
  - left. intros y [<-|Hy]; auto.
  - right. exists (x :: l1), m, l2. split; auto. split; auto. intros y [<-|Hy]; auto.
Qed.
Lemma c70_edits c x h d l c' out : edits_mutation x h -> cs_tm c h = Some (d, l) -> c_run E U c x = (c', out) ->
  exists l' v, out = CRet v /\ cs_tm c' h = Some (d, l') /\ edits E x l l' v.
Proof.
  intros He Hc H.
  assert (G : forall f, on_tm c h f = (c', out) -> out = CRet (snd (f l)) /\ cs_tm c' h = Some (d, fst (f l))).
  { intros f. unfold on_tm. rewrite Hc. destruct (f l) as [l' v]. intros X. injection X as <- <-. split; auto. cbn. unfold upd. now rewrite Nat.eqb_refl. }
  destruct x; cbn [edits_mutation] in He; try (destruct He; fail); subst h0; cbn [c_run] in H; apply G in H as [-> H2].
  - destruct aok; cbn [fst snd] in *; eexists _, _; (split; [reflexivity|split; [exact H2|]]); cbn; auto.
  - destruct (c32_add m l) as (_ & _ & _ & Hh). destruct (tm_has m l) eqn:Hm; [|destruct aok]; cbn [fst snd] in *; eexists _, _; (split; [reflexivity|split; [exact H2|]]); cbn.
    + right. split; auto. right. now apply Hh.
    + left. repeat split; auto. intros X. apply Hh in X. congruence.
    + right. auto.
  - destruct (c32_remove m l) as [R1 R2]. destruct (in_dec Nat.eq_dec m l) as [Hi|Hi].
    + destruct (in_split_first m l Hi) as (l1 & l2 & Hl & Hn). destruct (R2 l1 l2 Hl Hn) as [R _]. rewrite R in *. cbn [fst snd] in *. eexists _, _. split; [reflexivity|]. split; [exact H2|]. left. exists l1, l2. auto.
    + destruct (R1 Hi) as [R _]. rewrite R in *. cbn [fst snd] in *. eexists _, _. split; [reflexivity|]. split; [exact H2|]. right. auto.
  - destruct (c32_by_name E nm l) as [R1 R2]. destruct (named_split_first nm l) as [Hi|(l1 & m & l2 & Hl & A & B)].
    + destruct (R1 Hi) as (_ & R & _). rewrite R in *. cbn [fst snd] in *. eexists _, _. split; [reflexivity|]. split; [exact H2|]. right. auto.
    + destruct (R2 l1 m l2 Hl B A) as (_ & R & _). rewrite R in *. cbn [fst snd] in *. eexists _, _. split; [reflexivity|]. split; [exact H2|]. left. exists l1, m, l2. auto.
  - destruct (c32_remove m l) as [R1 R2]. destruct (in_dec Nat.eq_dec m l) as [Hi|Hi].
    + destruct (in_split_first m l Hi) as (l1 & l2 & Hl & Hn). destruct (R2 l1 l2 Hl Hn) as [_ R]. rewrite R in *. cbn [fst snd] in *. eexists _, _. split; [reflexivity|]. split; [exact H2|]. left. exists l1, l2. auto.
    + destruct (R1 Hi) as [_ R]. rewrite R in *. cbn [fst snd] in *. eexists _, _. split; [reflexivity|]. split; [exact H2|]. right. auto.
  - destruct (c32_by_name E nm l) as [R1 R2]. destruct (named_split_first nm l) as [Hi|(l1 & m & l2 & Hl & A & B)].
    + destruct (R1 Hi) as (_ & _ & R). rewrite R in *. cbn [fst snd] in *. eexists _, _. split; [reflexivity|]. split; [exact H2|]. right. auto.
    + destruct (R2 l1 m l2 Hl B A) as (R0 & _ & R). unfold tm_has_name in R0. rewrite R, R0 in *. cbn [fst snd] in *. eexists _, _. split; [reflexivity|]. split; [exact H2|]. left. exists l1, m, l2. auto.
  - cbn [fst snd] in *. eexists _, _. split; [reflexivity|]. split; [exact H2|]. split; auto. apply c32_dedup.
  - destruct aok; cbn [fst snd] in *; eexists _, _; (split; [reflexivity|split; [exact H2|]]); cbn; auto.
Qed.
Lemma c70_mutation_life c c' out :
  (forall nok h d, c_run E U c (CTmEmpty nok h d) = (c', out) ->
     if nok then out = CRet (CHandle (Some h)) /\ cs_tm c' h = Some (d, []) else out = CRet (CHandle None) /\ cs_tm c' h = cs_tm c h) /\
  (forall nok h t ty, w_type (s_w (cs_s c)) t = Some ty -> c_run E U c (CTmFromType nok h t) = (c', out) ->
     if nok then out = CRet (CHandle (Some h)) /\ cs_tm c' h = Some (t_dom ty, t_mixins ty) else out = CRet (CHandle None) /\ cs_tm c' h = cs_tm c h) /\
  (forall h, cs_tm c h <> None -> c_run E U c (CTmDestroy h) = (c', out) -> out = CRet CVoid /\ cs_tm c' h = None) /\
  (forall x h, edits_mutation x h \/ x = CTmDestroy h -> cs_tm c h = None -> c_run E U c x = (c', out) -> exists u, out = CUb u).
Proof.
  split; [|split; [|split]].
  - intros nok h d H. cbn in H. destruct nok; injection H as <- <-; split; auto. cbn. unfold upd. now rewrite Nat.eqb_refl.
  - intros nok h t ty Ht H. cbn in H. rewrite Ht in H. destruct nok; injection H as <- <-; split; auto. cbn. unfold upd. now rewrite Nat.eqb_refl.
  - intros h Hh H. cbn in H. destruct (cs_tm c h); [|congruence]. injection H as <- <-. split; auto. cbn. unfold upd. now rewrite Nat.eqb_refl.
  - intros x h [He|He] Hc H.
    + destruct x; cbn [edits_mutation] in He; try (destruct He; fail); subst h0; cbn [c_run] in H; unfold on_tm in H; rewrite Hc in H; injection H as _ <-; eauto.
    + subst x. cbn in H. rewrite Hc in H. injection H as _ <-. eauto.
Qed.
End C.
