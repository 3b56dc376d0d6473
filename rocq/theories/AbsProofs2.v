(** Every call does with the lists of mixins and values what the specification says *)
From Coq Require Import List Arith ZArith NArith Lia Bool.
From Verif Require Import Base Sv SvProofs BaseLemmas Info TypeBuild TypeQuery Domain ElemProofs TypesProofs SpecReg SpecDom HistProofs DomTheorems SpecLayout Heap HeapProofs Mutation Object SpecObj SpecMut SpecAct SpecAbs
  PartProofs RollProofs AllocProofs UpdProofs FinProofs PerfProofs WorldProofs ObjProofs OpProofs PlanProofs ActProofs ActProofs2 MatchProofs ActProofs3 MutProofs MutProofs2 MutTheorems HonestProofs StableProofs SpecSeal SealProofs
  ObjTheorems ObjTheorems2 ObjTheorems3 ObjTheorems4 ObjTheorems5 ObjTheorems6 ObjTheorems7 ObjTheorems8 ObjTheorems9 AbsProofs.
Import ListNotations.

Lemma mixins_cons x l y l' : mixins (x :: l) = mixins (y :: l') -> fst x = fst y /\ mixins l = mixins l'.
Proof. unfold mixins. cbn. intros [= A B]. auto. Qed.
Lemma but_by (P : mptr -> Prop) l l' : mixins l' = mixins l -> (forall i m v v', nth_error l i = Some (m, v) -> nth_error l' i = Some (m, v') -> ~ P m -> v' = v) -> but_values P l l'.
Proof.
  intros Hm H. split; auto. intros m Hp. revert l' Hm H. induction l as [|[x v] l IH]; intros [|[y w] l'] Hm H; try discriminate; auto.
  destruct (mixins_cons _ _ _ _ Hm) as [Hxy Hl]. cbn in Hxy. subst y. cbn. destruct (Nat.eqb_spec x m) as [->|Hne].
  - f_equal. apply (H 0 m v w); auto.
  - apply IH; auto. intros i m' a b H1 H2. exact (H (S i) m' a b H1 H2).
Qed.
Lemma map_by (f : mptr * Z -> mptr * Z) l l' : mixins l' = mixins l -> (forall i m v v', nth_error l i = Some (m, v) -> nth_error l' i = Some (m, v') -> f (m, v) = (m, v')) -> l' = map f l.
Proof.
  revert l'. induction l as [|[x v] l IH]; intros [|[y w] l'] Hm H; try discriminate; auto.
  destruct (mixins_cons _ _ _ _ Hm) as [Hxy Hl]. cbn in Hxy. subst y. cbn. f_equal; [symmetry; apply (H 0); auto|]. apply IH; auto. intros i m' a b H1 H2. exact (H (S i) m' a b H1 H2).
Qed.
Lemma steps_ov_may t ps : forall u i k, i < length (t_mixins t) -> steps_ov t ps u i = Some k ->
  exists p, In p ps /\ match p with PAt j _ => i = j | PNext _ | PEach _ None => True | PEach _ (Some n) => i < n | _ => False end.
Proof.
  induction ps as [|p ps IH]; intros u i k Hi H; [cbn in H; discriminate H|].
  assert (Hrec : forall u', steps_ov t ps u' i = Some k -> exists p0, In p0 (p :: ps) /\ match p0 with PAt j _ => i = j | PNext _ | PEach _ None => True | PEach _ (Some n) => i < n | _ => False end).
  { intros u' H'. destruct (IH u' i k Hi H') as (p0 & A & B). exists p0. split; [now right|exact B]. }
  destruct p as [j k0|k0|k0 up|up| |]; cbn [steps_ov] in H; eauto.
  - match type of H with (if ?c then _ else _) = _ => destruct c end; [discriminate H|]. destruct (i <? j); [discriminate H|]. destruct (Nat.eqb_spec i j) as [->|]; [|eauto]. exists (PAt j k0). split; [now left|reflexivity].
  - destruct (i =? u); [|eauto]. exists (PNext k0). split; [now left|exact Logic.I].
  - destruct (Nat.ltb_spec i (cut t up)) as [Hlt|]; [|eauto]. exists (PEach k0 up). split; [now left|]. destruct up as [n|]; auto. unfold cut in Hlt. lia.
  - destruct (i <? cut t up); [discriminate H|eauto].
Qed.

Section Abs2.
Variable E : env.
Variable U : user.
Hypothesis AM : aligned_mixins E.
Notation Inv := (Inv E).

Lemma view_emptied s o x : Inv s -> typed s -> s_obj s o = Some x -> o_type x <> None -> o_data x = None -> is_view (look s) o (o_sealed x) [].
Proof.
  intros I Ty Hx Ht Hd. destruct (typed_cases E s o I Ty) as (x' & r & t & A & B & C & D); [exists x; auto|]. assert (x' = x) as -> by congruence.
  destruct D as [[_ D]|(b & dd & (_ & D & _))]; [|congruence]. eapply look_empty; eauto.
Qed.
Lemma goes_rec s op s' res r t : Inv s -> match op with ODom _ => False | _ => True end -> op_run E U op s = (s', res) -> w_type (s_w s) r = Some t -> exists n, w_type (s_w s') r = Some (set_nobj t n).
Proof. intros I Hd Hr Ht. destruct (op_stable E U op s s' res Hd Hr (inv_bounded E s I)) as [G _]. exact (G r t Ht). Qed.
Lemma same_seal op s s' res o x x' : op_run E U op s = (s', res) -> ~ is_ub res -> op <> OSeal o -> (forall src, op <> OMoveAssign o src) -> s_obj s o = Some x -> s_obj s' o = Some x' -> o_sealed x' = o_sealed x.
Proof.
  intros Hr Hu H1 H2 Hx Hx'. destruct (seal_state E U op s s' res o x x' Hr Hu Hx Hx') as [_ H]. destruct (o_sealed x), (o_sealed x'); auto; [apply H; auto|].
  destruct (proj1 H eq_refl) as [A|[A|(src & y & A & _)]]; [discriminate|contradiction|]. exfalso. now apply (H2 src).
Qed.
Lemma view_took s s' o src y : Inv s -> typed s -> Inv s' -> typed s' -> s_obj s src = Some y -> o_type y <> None -> took E s s' o src -> handed_over (look s) (look s') o src.
Proof.
  intros I Ty I' Ty' Hy Hyt T. destruct (view_of E s src I Ty) as (y' & r & t & l & A1 & A2 & A3 & A4 & A5 & A6); [exists y; auto|]. assert (y' = y) as -> by congruence.
  assert (Hto : type_of s src r t) by (exists y; auto). destruct (tk_obj _ _ _ _ _ T y Hy) as (x & B1 & B2 & B3 & B4). destruct (tk_type _ _ _ _ _ T r t Hto) as (n & Hn).
  exists (o_sealed y), l. split; auto. split.
  - rewrite <- B3. eapply (view_here E); eauto. intros i m v. rewrite (A6 i m v). split; intros (p & Hp); exists p; now apply (tk_holds _ _ _ _ _ T).
  - assert (object_domain s src (t_dom t)) as Hd by (exists r, t; auto). pose proof (tk_source _ _ _ _ _ T y (t_dom t) Hy Hd) as Hs. exact (view_emptied s' src _ I' Ty' Hs ltac:(discriminate) eq_refl).
Qed.

(** *** The mixins that two objects share *)
Lemma shared_holds s s' o src both a i m p v v' : Inv s -> typed s -> only_shared s s' o src both -> holds s a i m p v -> instance s' p = Some {| i_mixin := m; i_val := v' |} -> holds s' a i m p v'.
Proof.
  intros I Ty S H Hi. apply holds_iff in H. destruct H as (x & b & d & A1 & A2 & A3 & A4 & A5 & _). apply holds_iff. exists x, b, d. rewrite (os_objects _ _ _ _ _ S), (os_data _ _ _ _ _ S). split; auto. split; auto. split; auto.
  destruct A3 as (r & t & Ht & Hn). exists r, t. split; auto. now apply (os_types _ _ _ _ _ S).
Qed.
Lemma shared_views s s' o src both a : Inv s -> typed s -> Inv s' -> typed s' -> only_shared s s' o src both -> with_type_set s a ->
  exists sl l l', is_view (look s) a sl l /\ is_view (look s') a sl l' /\ mixins l' = mixins l /\ shown s a l /\
    forall i m v v', nth_error l i = Some (m, v) -> nth_error l' i = Some (m, v') -> exists p, holds s a i m p v /\ instance s' p = Some {| i_mixin := m; i_val := v' |}.
Proof.
  intros I Ty I' Ty' S Ts. destruct (view_of E s a I Ty Ts) as (x & r & t & l & A1 & A2 & A3 & A4 & A5 & A6).
  assert (Hto : type_of s' a r t) by (apply (os_types _ _ _ _ _ S); exists x; auto). pose proof Hto as (x' & B1 & B2 & B3). assert (x' = x) as ->. { rewrite (os_objects _ _ _ _ _ S) in B1. congruence. }
  destruct (look_shown E s' a x r t I' Ty' B1 B2 B3) as (l' & C1 & C2 & C3). exists (o_sealed x), l, l'. split; auto. split; auto. split; [congruence|]. split; auto.
  intros i m v v' Hi Hi'. apply A6 in Hi. apply C3 in Hi'. destruct Hi as (p & Hp), Hi' as (p' & Hp'). exists p. split; auto.
  pose proof (os_kind _ _ _ _ _ S p) as Hk. rewrite (proj2 (proj2 Hp)) in Hk. cbn in Hk. destruct (instance s' p) as [[m2 v2]|] eqn:Hv; [|discriminate]. cbn in Hk. injection Hk as ->.
  pose proof (shared_holds s s' o src both a i m p v v2 I Ty S Hp Hv) as Hh. destruct (holds_index E AM s' a _ _ _ _ _ _ _ I' Ty' Hh Hp') as (_ & _ & ->). reflexivity.
Qed.
Lemma shared_target s s' o src both : Inv s -> typed s -> Inv s' -> typed s' -> only_shared s s' o src both -> with_type_set s o -> with_type_set s src -> (both = true -> o <> src) ->
  (forall m p q v w, shares s o src m p q v w -> instance s' p = Some {| i_mixin := m; i_val := w |}) ->
  exists sl sl' l ls, is_view (look s) o sl l /\ is_view (look s) src sl' ls /\ is_view (look s') o sl (overwrite l ls).
Proof.
  intros I Ty I' Ty' S To Ts Hb Hv. destruct (shared_views s s' o src both o I Ty I' Ty' S To) as (sl & l & l' & A1 & A2 & A3 & A4 & A5).
  destruct (view_of E s src I Ty Ts) as (y & r & t & ls & B1 & B2 & B3 & B4 & B5 & B6). exists sl, (o_sealed y), l, ls. split; auto. split; auto.
  replace (overwrite l ls) with l'; auto. apply map_by; auto. intros i m v v' Hi Hi'. destruct (A5 i m v v' Hi Hi') as (p & Hp & Hpv). cbn [fst].
  destruct (val_of m ls) as [w|] eqn:Hw.
  - apply (val_shown E AM s src ls m w I Ty B6) in Hw. destruct Hw as (j & q & Hq). rewrite (Hv m p q v w) in Hpv; [congruence|]. exists i, j. auto.
  - rewrite (os_other _ _ _ _ _ S) in Hpv.
    + rewrite (proj2 (proj2 Hp)) in Hpv. congruence.
    + intros m' q v2 w2 (i2 & j2 & H1 & H2). destruct (one_owner E AM s o i m p v o i2 m' v2 I Ty Hp H1) as (_ & _ & -> & _). assert (val_of m ls = Some w2) as Hz; [|congruence]. apply (val_shown E AM s src ls m w2 I Ty B6). eauto.
    + intros Hbo m' p' v2 w2 (i2 & j2 & H1 & H2). destruct (one_owner E AM s o i m p v src j2 m' w2 I Ty Hp H2) as (Hc & _). now apply (Hb Hbo).
Qed.
Lemma shared_source s s' o src : Inv s -> typed s -> Inv s' -> typed s' -> only_shared s s' o src true -> with_type_set s src -> o <> src -> only_values (sees (look s) o) (look s) (look s') src.
Proof.
  intros I Ty I' Ty' S Ts Hne. destruct (shared_views s s' o src true src I Ty I' Ty' S Ts) as (sl & l & l' & A1 & A2 & A3 & A4 & A5). exists sl, l, l'. split; auto. split; auto. apply but_by; auto.
  intros i m v v' Hi Hi' Hp. destruct (A5 i m v v' Hi Hi') as (p & Hh & Hv). rewrite (os_other _ _ _ _ _ S) in Hv.
  - rewrite (proj2 (proj2 Hh)) in Hv. congruence.
  - intros m' q v2 w2 (i2 & j2 & H1 & H2). destruct (one_owner E AM s src i m p v o i2 m' v2 I Ty Hh H1) as (Hc & _). congruence.
  - intros _ m' p' v2 w2 (i2 & j2 & H1 & H2). destruct (one_owner E AM s src i m p v src j2 m' w2 I Ty Hh H2) as (_ & _ & -> & _). apply Hp. apply (sees_iff E AM s o m I Ty). exists i2. apply H1.
Qed.
Lemma shared_failed s s' o src : Inv s -> typed s -> Inv s' -> typed s' -> only_shared s s' o src false -> with_type_set s o -> only_values (sees (look s) src) (look s) (look s') o.
Proof.
  intros I Ty I' Ty' S Ts. destruct (shared_views s s' o src false o I Ty I' Ty' S Ts) as (sl & l & l' & A1 & A2 & A3 & A4 & A5). exists sl, l, l'. split; auto. split; auto. apply but_by; auto.
  intros i m v v' Hi Hi' Hp. destruct (A5 i m v v' Hi Hi') as (p & Hh & Hv). rewrite (os_other _ _ _ _ _ S) in Hv; [rewrite (proj2 (proj2 Hh)) in Hv; congruence| |discriminate].
  intros m' q v2 w2 (i2 & j2 & H1 & H2). destruct (one_owner E AM s o i m p v o i2 m' v2 I Ty Hh H1) as (_ & _ & -> & _). apply Hp. apply (sees_iff E AM s src m I Ty). exists j2. apply H2.
Qed.

(** *** Mutations *)
Lemma target_type2 s op o unw s' r t' : Inv s -> typed s -> fair E s op -> mutates op = Some (o, unw) -> op_run E U op s = (s', Ok tt) -> aims_at E s op r -> type_of s' o r t' -> match op with OGradual u _ _ _ => u = false | _ => True end ->
  exists t n, wanted E s op r t /\ type_of s' o r (set_nobj t n).
Proof.
  intros I Ty F Hm Hr Ha Hty Hun.
  assert (Hd : match op with ODom _ => False | _ => True end -> forall t, w_type (s_w s) r = Some t -> exists n, t' = set_nobj t n).
  { intros Hd t Ht. destruct (op_stable E U op s s' (Ok tt) Hd Hr (inv_bounded E s I)) as [G _]. eapply goes_on; eauto. }
  destruct op; try discriminate; cbn in Hm; injection Hm as -> ->; cbn in Ha.
  - subst. destruct F as (_ & x & t & _ & Ht & _). destruct (Hd Logic.I t Ht) as (n & ->). exists t, n. cbn. auto.
  - subst. destruct F as (_ & (x & t & _ & Ht & _) & _). destruct (Hd Logic.I t Ht) as (n & ->). exists t, n. cbn. auto.
  - destruct F as ((x & Hx & Hxt) & F1 & F2 & F3). destruct Ha as (q & t0 & l & w & A1 & A2 & A3). pose proof A1 as (x' & B1 & B2 & B3). assert (x' = x) as -> by congruence.
    cbn in Hr. unfold mutate in Hr. rewrite (bnd_ok _ _ _ _ _ (get_obj_step s o x Hx)), (bnd_ok _ _ _ _ _ (the_type_step s x q t0 B2 B3)) in Hr. cbn [snd] in Hr.
    destruct (made_goes E s o aok false _ q t0 _ s' r l t' I Ty A1 F2 (fun r => StableProofs.k_mutate_to E U _ o r _) Hr A2 w A3 Hty) as (t1 & n & C1 & ->). exists t1, n. split; auto. exists q, t0, l, w. auto.
  - subst unw. eapply target_type; eauto. reflexivity.
  - subst. destruct F as (_ & (x & t & _ & Ht & _) & _). destruct (Hd Logic.I t Ht) as (n & ->). exists t, n. cbn. auto.
  - destruct F as ((x & Hx & Hxt) & F2). destruct Ha as (q & t0 & l & w & A1 & A2 & A3). pose proof A1 as (x' & B1 & B2 & B3). assert (x' = x) as -> by congruence.
    cbn in Hr. unfold c_mutate in Hr. rewrite (bnd_ok _ _ _ _ _ (get_obj_step s o x Hx)), (bnd_ok _ _ _ _ _ (the_type_step s x q t0 B2 B3)) in Hr. cbn [snd] in Hr.
    destruct (made_goes E s o aok false _ q t0 _ s' r l t' I Ty A1 F2 ltac:(intros r1; apply StableProofs.k_bnd; [apply StableProofs.k_get_ty|]; intros t1; apply StableProofs.k_perform; apply StableProofs.mk_cop_loop) Hr A2 w A3 Hty) as (t1 & n & C1 & ->). exists t1, n. split; auto. exists q, t0, l, w. auto.
Qed.
Lemma only_values_refl (P : mptr -> Prop) s o : Inv s -> typed s -> with_type_set s o -> only_values P (look s) (look s) o.
Proof. intros I Ty Ts. destruct (view_of E s o I Ty Ts) as (x & r & t & l & _ & _ & _ & V & _). exists (o_sealed x), l, l. split; auto. split; auto. split; auto. Qed.
Lemma fair_typed s op o unw : fair E s op -> mutates op = Some (o, unw) -> with_type_set s o.
Proof. destruct op; cbn [fair mutates]; try discriminate; intros F [= -> ->]; try tauto. Qed.
Lemma mutation_effect s op o unw s' : Inv s -> typed s -> Inv s' -> typed s' -> fair E s op -> mutates op = Some (o, unw) -> op_run E U op s = (s', Ok tt) ->
  (exists r t sl l l', wanted E s op r t /\ is_view (look s) o sl l /\ is_view (look s') o sl l' /\ changed_mixins (fun m => exists k, upds E op m k) (t_mixins t) l l') \/
  (unw = true /\ only_values (fun m => exists k, upds E op m k) (look s) (look s') o).
Proof.
  intros I Ty I' Ty' F Hm Hr. pose proof (fair_typed s op o unw F Hm) as Ts. destruct (mutation_spec E U AM s op o unw s' (Ok tt) I Ty F Hm Hr) as (_ & _ & H).
  assert (G : match op with OGradual u _ _ _ => u = false | _ => True end \/ (exists aok ops, op = OGradual true aok o ops /\ unw = true)).
  { destruct op; auto; try discriminate. cbn in Hm. injection Hm as -> ->. destruct unw; [right; eauto|auto]. }
  destruct G as [G|(aok & ops & -> & ->)].
  - destruct H as [(r & l & Ha & M)|(-> & ms & l & M)].
    + left. destruct (mt_type _ _ _ _ _ _ _ _ M) as (t' & Ht'). destruct (target_type2 s op o unw s' r t' I Ty F Hm Hr Ha Ht' G) as (t & n & Hw & Hn).
      destruct (view_mutated E AM s s' o r t n _ _ l (fun m => exists k, upds E op m k) I Ty I' Ty' Ts M Hn) as (sl & l0 & l1 & X).
      * intros x x' Hx Hx'. apply (same_seal op s s' (Ok tt) o x x' Hr (fun z => z)); auto; [intros ->; discriminate|intros src ->; discriminate].
      * intros i m c [(k & Hk & _)|[_ Hc]]; eauto.
      * exists r, t, sl, l0, l1. tauto.
    + right. split; auto. apply (view_failed E AM s s' o ms _ _ l _ I Ty I' Ty' Ts M). intros i m f src _ [(k & Hk & _)|[_ Hc]]; eauto. discriminate.
  - right. split; auto. destruct Ts as (x & Hx & Hxt). destruct (the_type_ok E s o x I Ty Hx Hxt) as (q & t & Hq & Ht & _). cbn in Hr. unfold gradual in Hr. rewrite (bnd_ok _ _ _ _ _ (get_obj_step s o x Hx)), (bnd_ok _ _ _ _ _ (the_type_step s x q t Hq Ht)) in Hr. injection Hr as <- _.
    apply only_values_refl; auto. exists x. auto.
Qed.
Lemma pieces_effect s unw o r ps s' res : Inv s -> typed s -> Inv s' -> typed s' -> fair E s (OPiecewise unw o r ps) -> op_run E U (OPiecewise unw o r ps) s = (s', res) ->
  match res with
  | Ok _ => effect E s (OPiecewise unw o r ps) (look s) (look s')
  | Throw _ => only_values (may_update E s (OPiecewise unw o r ps)) (look s) (look s') o
  | Ub _ => False
  end.
Proof.
  intros I Ty I' Ty' F Hr. pose proof F as F0. cbn in F. destruct F as (Ts & Hb & Hne & Hf). pose proof Ts as (x & Ho & _).
  destruct (act_pieces E U AM s o x r ps unw I Ty Ho Hb Hne Hf) as (s1 & res1 & t & H1 & H2 & H3 & H4 & _ & _). pose proof Hr as Hr0. cbn [op_run] in Hr. rewrite Hr in H1. injection H1 as <- <-.
  pose proof (ov_spec E U AM s o x r t _ _ (fun m k => exists i, nth_error (t_mixins t) i = Some m /\ steps_ov t ps 0 i = Some k) (fun m k => exists i, nth_error (t_mixins t) i = Some m /\ steps_ov t ps 0 i = Some k) unw s' res _ I Ty I' Ty' H4) as Hx.
  assert (Hov : forall i m k, nth_error (t_mixins t) i = Some m -> (steps_ov t ps 0 i = Some k <-> exists j, nth_error (t_mixins t) j = Some m /\ steps_ov t ps 0 j = Some k)).
  { intros i m k Hi. split; [eauto|]. intros (j & Hj & Hk). assert (Hnd : NoDup (t_mixins t)). { inversion H4; subst; match goal with H : setup _ _ _ _ _ _ _ _ _ _ _ |- _ => apply (tg_nodup _ _ _ (su_good _ _ _ _ _ _ _ _ _ _ _ H)) end. }
    assert (j = i); [|congruence]. apply (proj1 (NoDup_nth_error (t_mixins t)) Hnd); [eapply nth_error_lt; eauto|congruence]. }
  specialize (Hx Hov Hov).
  assert (HP : forall m k, (exists i, nth_error (t_mixins t) i = Some m /\ steps_ov t ps 0 i = Some k) -> may_update E s (OPiecewise unw o r ps) m).
  { intros m k (i & Hi & Hk). destruct (steps_ov_may t ps 0 i k (nth_error_lt _ _ _ Hi) Hk) as (p & Hp & Hm). exists p, t, i. auto. }
  assert (Hfail : forall l, failed E s s' o (t_mixins t) (made_with E (fun m k => exists i, nth_error (t_mixins t) i = Some m /\ steps_ov t ps 0 i = Some k)) (updated_with (fun m k => exists i, nth_error (t_mixins t) i = Some m /\ steps_ov t ps 0 i = Some k)) l ->
    only_values (may_update E s (OPiecewise unw o r ps)) (look s) (look s') o).
  { intros l M. apply (view_failed E AM s s' o _ _ _ l _ I Ty I' Ty' Ts M). intros i m f src _ [(k & Hk & _)|[_ Hc]]; [eapply HP; eauto|discriminate]. }
  destruct res as [[]|e|u]; [| |contradiction].
  - destruct Hx as [_ Hx]. destruct unw; destruct Hx as (l & M); [right; split; auto; eapply Hfail; eauto|]. left.
    destruct (mt_type _ _ _ _ _ _ _ _ M) as (t' & Ht'). destruct (goes_rec s (OPiecewise false o r ps) s' (Ok tt) r t I Logic.I Hr0 H2) as (n & Hn).
    destruct (view_mutated E AM s s' o r t n _ _ l (may_update E s (OPiecewise false o r ps)) I Ty I' Ty' Ts M) as (sl & l0 & l1 & X).
    + destruct Ht' as (x' & A & B & C). exists x'. auto.
    + intros x1 x' Hx1 Hx'. apply (same_seal (OPiecewise false o r ps) s s' (Ok tt) o x1 x' Hr0 (fun z => z)); auto; discriminate.
    + intros i m c [(k & Hk & _)|[_ Hc]]; eauto.
    + exists r, t, sl, l0, l1. split; [cbn; auto|tauto].
  - destruct Hx as (l & M). eauto.
Qed.

(** *** All calls *)
Lemma typed_after s op s' res : Inv s -> typed s -> fair E s op -> op_run E U op s = (s', res) -> ~ is_ub res /\ Inv s' /\ typed s'.
Proof. intros I Ty F Hr. destruct (act_any E U AM s op I Ty F) as (s1 & r1 & H1 & H2 & H3 & H4). rewrite Hr in H1. injection H1 as <- <-. auto. Qed.
Lemma view_stillborn s s' o : stillborn s s' o -> untyped (look s') o.
Proof. intros B. destruct (sb_obj _ _ _ B) as (x & A1 & A2 & _). exists (o_sealed x). now apply look_untyped. Qed.
Lemma new_effect s unw o r a sl s' : Inv s -> typed s -> Inv s' -> typed s' -> fair E s (ONew unw o r a sl) -> op_run E U (ONew unw o r a sl) s = (s', Ok tt) -> effect E s (ONew unw o r a sl) (look s) (look s').
Proof.
  intros I Ty I' Ty' F Hr. pose proof (new_spec E U AM _ _ _ _ _ _ _ _ I Ty F Hr) as H. cbn in F. destruct F as [F1 F2]. destruct H as [(l & C)|[-> C]]; [|right; split; auto; now apply view_stillborn with (s := s)].
  left. destruct (w_type (s_w s) r) as [t|] eqn:Ht; [|congruence]. destruct (goes_rec s (ONew unw o r a sl) s' _ r t I Logic.I Hr Ht) as (n & Hn). destruct (cr_obj _ _ _ _ _ _ _ _ _ C) as (x & A1 & A2 & A3 & A4).
  destruct (look_shown E s' o x r _ I' Ty' A1 A2 Hn) as (l' & V & M & _). exists t, l'. subst sl. split; auto.
Qed.
Lemma copy_effect s unw o src a s' : Inv s -> typed s -> Inv s' -> typed s' -> fair E s (OCopy unw o src a) -> op_run E U (OCopy unw o src a) s = (s', Ok tt) -> effect E s (OCopy unw o src a) (look s) (look s').
Proof.
  intros I Ty I' Ty' F Hr. pose proof (copy_spec E U AM _ _ _ _ _ _ _ I Ty F Hr) as H. cbn in F. destruct F as [F1 F2]. destruct H as [(l & C)|[-> C]]; [|right; split; auto; now apply view_stillborn with (s := s)].
  left. destruct (s_obj s src) as [y|] eqn:Hy; [|congruence]. destruct (cr_obj _ _ _ _ _ _ _ _ _ C) as (x & A1 & A2 & A3 & A4). unfold otype in A2. rewrite Hy in A2.
  destruct (o_type y) as [r|] eqn:Hyr.
  - destruct (view_of E s src I Ty) as (y' & r' & t & ls & B1 & B2 & B3 & B4 & B5 & B6); [exists y; split; auto; congruence|]. assert (y' = y) as -> by congruence. assert (r' = r) as -> by congruence.
    destruct (goes_rec s (OCopy unw o src a) s' _ r t I Logic.I Hr B3) as (n & Hn). assert (Hto : type_of s' o r (set_nobj t n)) by (exists x; auto).
    eexists. split; [exact B4|]. cbn [v_mixins]. rewrite <- A4. apply (view_here E s' o x r (set_nobj t n) ls I' Ty' A1 Hto).
    assert (Hcp : forall i m p v, holds s' o i m p v -> exists q, holds s src i m q v).
    { intros i m p v Hh. destruct (cr_new _ _ _ _ _ _ _ _ _ C i m (proj1 Hh)) as (p2 & v2 & f & sp & D1 & _ & (_ & _ & q & w & -> & D2) & D3 & _). destruct (holds_index E AM s' o _ _ _ _ _ _ _ I' Ty' Hh D1) as (_ & _ & ->).
      specialize (D3 q eq_refl). rewrite (proj2 (proj2 D2)) in D3. injection D3 as <-. eauto. }
    intros i m v. split.
    + intros Hi. pose proof (B6 i m v) as B7. apply B7 in Hi. destruct Hi as (q & Hq). assert (has_mixin s' o i m) as Hm.
      { exists r, (set_nobj t n). split; auto. destruct (proj1 Hq) as (r2 & t2 & T2 & N2). destruct (type_of_fun s src r t r2 t2) as [-> ->]; auto. exists y. auto. }
      destruct (mixin_holds E s' o i m I' Ty' Hm) as (p & v' & Hh). destruct (Hcp i m p v' Hh) as (q' & Hq'). destruct (holds_index E AM s src _ _ _ _ _ _ _ I Ty Hq Hq') as (_ & _ & ->). eauto.
    + intros (p & Hh). apply B6. eauto.
  - exists {| v_sealed := o_sealed y; v_mixins := None |}. split; [now apply look_untyped|]. cbn. rewrite <- A4. now apply look_untyped.
Qed.
Lemma from_effect s unw o src s' : Inv s -> typed s -> Inv s' -> typed s' -> fair E s (OCopyFrom unw o src) -> op_run E U (OCopyFrom unw o src) s = (s', Ok tt) -> effect E s (OCopyFrom unw o src) (look s) (look s').
Proof.
  intros I Ty I' Ty' F Hr. pose proof (from_spec E U AM _ _ _ _ _ _ I Ty F Hr) as H. cbn in F. destruct F as (Ts & F2 & F3). destruct (s_obj s src) as [y|] eqn:Hy; [|congruence].
  destruct H as [Hs H]. destruct (view_of E s o I Ty Ts) as (x & r0 & t0 & l0 & A1 & A2 & A3 & A4 & A5 & A6). assert (Hxs : o_sealed x = false) by (destruct (o_sealed x) eqn:Hz; auto; exfalso; apply Hs; exists x; auto).
  destruct H as [((z & Hz & Hd) & r & l & Hq & M)|[(Hn & (l & W) & x1 & y1 & Hx1 & Hy1 & Ho')|(-> & _ & ms & l & M)]].
  - left. assert (z = y) as -> by congruence. unfold otype in Hq. rewrite Hy in Hq.
    destruct (view_of E s src I Ty) as (y' & r' & t & ls & B1 & B2 & B3 & B4 & B5 & B6); [exists y; split; auto; congruence|]. assert (y' = y) as -> by congruence. assert (r' = r) as -> by congruence.
    destruct (goes_rec s (OCopyFrom unw o src) s' _ r t I Logic.I Hr B3) as (n & Hn). destruct (mt_type _ _ _ _ _ _ _ _ M) as (t' & (x' & C1 & C2 & C3)). assert (Hto : type_of s' o r (set_nobj t n)) by (exists x'; auto).
    assert (Hxs' : o_sealed x' = false). { rewrite <- Hxs. apply (same_seal (OCopyFrom unw o src) s s' (Ok tt) o x x' Hr (fun z => z)); auto; discriminate. }
    eexists _, l0. split; [rewrite <- Hxs; exact A4|]. split; [exact B4|]. cbn [v_mixins]. rewrite <- Hxs'. apply (view_here E s' o x' r (set_nobj t n) ls I' Ty' C1 Hto).
    assert (Hcp : forall i m p v, holds s' o i m p v -> exists q, holds s src i m q v).
    { intros i m p v Hh. destruct (in_dec Nat.eq_dec m (mixins l0)) as [Hin|Hin].
      - apply (mixin_shown E AM s o l0 m I Ty A6) in Hin. destruct Hin as (j & Hj). destruct (mixin_holds E s o j m I Ty Hj) as (p0 & v0 & H0).
        destruct (mutated_value E AM s s' o r _ _ l i m p v j p0 v0 I Ty I' Ty' M Hh H0) as (c & (q & w & -> & _ & Hw) & Hva). cbn in Hva. specialize (Hva q eq_refl). rewrite (proj2 (proj2 Hw)) in Hva. injection Hva as <-. eauto.
      - destruct (mt_new _ _ _ _ _ _ _ _ M i m (proj1 Hh)) as (p2 & v2 & f & sp & D1 & _ & (_ & _ & q & w & -> & D2) & D3 & _). { intros Hz2. apply Hin. now apply (mixin_shown E AM s o l0 m I Ty A6). }
        destruct (holds_index E AM s' o _ _ _ _ _ _ _ I' Ty' Hh D1) as (_ & _ & ->). specialize (D3 q eq_refl). rewrite (proj2 (proj2 D2)) in D3. injection D3 as <-. eauto. }
    intros i m v. split.
    + intros Hi. apply B6 in Hi. destruct Hi as (q & Hq2). assert (has_mixin s' o i m) as Hm.
      { exists r, (set_nobj t n). split; auto. destruct (proj1 Hq2) as (r2 & t2 & T2 & N2). destruct (type_of_fun s src r t r2 t2) as [-> ->]; auto. exists y. auto. }
      destruct (mixin_holds E s' o i m I' Ty' Hm) as (p & v' & Hh). destruct (Hcp i m p v' Hh) as (q' & Hq'). destruct (holds_index E AM s src _ _ _ _ _ _ _ I Ty Hq2 Hq') as (_ & _ & ->). eauto.
    + intros (p & Hh). apply B6. eauto.
  - left. assert (x1 = x) as -> by congruence. assert (y1 = y) as -> by congruence. assert (Hyd : o_data y = None) by (destruct (o_data y) eqn:Hz; auto; exfalso; apply Hn; exists y; split; auto; congruence).
    destruct (o_type y) as [r|] eqn:Hyr.
    + eexists _, l0. split; [rewrite <- Hxs; exact A4|]. split; [apply (view_emptied s src y I Ty Hy); [congruence|auto]|]. cbn [v_mixins]. pose proof (view_emptied s' o _ I' Ty' Ho') as V. cbn in V. rewrite Hxs in V. apply V; [discriminate|reflexivity].
    + eexists _, l0. split; [rewrite <- Hxs; exact A4|]. split; [apply (look_untyped s src y Hy Hyr)|]. cbn [v_mixins]. pose proof (look_untyped s' o _ Ho') as V. cbn in V. rewrite Hxs in V. apply V. auto.
  - right. split; auto. apply (view_failed E AM s s' o ms _ _ l _ I Ty I' Ty' Ts M). intros i m f sp _ (q & w & _ & _ & Hw). apply (sees_iff E AM s src m I Ty). exists i. apply Hw.
Qed.
Lemma use_effect s o i k s' res : Inv s -> typed s -> Inv s' -> typed s' -> fair E s (OUse o i k) -> op_run E U (OUse o i k) s = (s', res) -> only_values (sees_at (look s) o i) (look s) (look s') o.
Proof.
  intros I Ty I' Ty' F Hr. cbn [fair] in F. destruct (use_spec E U s o i k s' res I Ty F Hr) as [(_ & -> & _)|(m & p & v & v' & e & H1 & H2 & H3 & _)].
  - destruct (view_of E s o I Ty F) as (x & r & t & l & A1 & A2 & A3 & A4 & _). exists (o_sealed x), l, l. split; auto. split; auto. split; auto.
  - destruct (shared_views s s' o o false o I Ty I' Ty' (mixin_only s s' o i m p v false H3 H1) F) as (sl & l & l' & A1 & A2 & A3 & A4 & A5). exists sl, l, l'. split; auto. split; auto. apply but_by; auto.
    intros j m2 w w' Hj Hj' Hp. destruct (A5 j m2 w w' Hj Hj') as (q & Hh & Hv). rewrite (omx_other _ _ _ H3) in Hv; [rewrite (proj2 (proj2 Hh)) in Hv; congruence|].
    intros ->. destruct (one_owner E AM s o j m2 p w o i m v I Ty Hh H1) as (_ & -> & -> & _). apply Hp. exists sl, l. split; auto. unfold mixins. now rewrite nth_error_map, Hj.
Qed.
Lemma simulates s op s' res : Inv s -> typed s -> fair E s op -> op_run E U op s = (s', res) -> behaves E s op res (look s) (look s').
Proof.
  intros I Ty F Hr. destruct (typed_after s op s' res I Ty F Hr) as (Hu & I' & Ty'). split.
  { intros o Ho. apply (look_same E s s' o I Ty I' Ty'). eapply (frame E U AM); eauto. }
  assert (MT : forall o unw, mutates op = Some (o, unw) -> (forall m k, ~ upds E op m k) -> forall e, res = Throw e -> forall o', look s' o' = look s o').
  { intros o unw Hm Hn e ->. destruct (mutation_throw E U AM s op o unw s' e I Ty F Hm Hn Hr) as (A & B & _). now apply (look_unchanged E). }
  destruct op; cbn [effect no_effect];
    try (destruct res as [[]|e|u]; [|eapply MT; [reflexivity|intros m k Hk; exact Hk|reflexivity]|apply Hu; exact Logic.I]; eapply mutation_effect; eauto; reflexivity).
  - (* OEmpty *) cbn in F, Hr. unfold new_empty, bnd, fresh_obj in Hr. rewrite F in Hr. injection Hr as <- <-. apply (view_emptied _ o {| o_type := Some (TEmpty d); o_data := None; o_alloc := a; o_sealed := false |} I' Ty'); [cbn; apply upd_same|discriminate|reflexivity].
  - (* ONew *) destruct res as [[]|e|u]; [|pose proof (new_spec E U AM _ _ _ _ _ _ _ _ I Ty F Hr) as (A & B & _); now apply (look_unchanged E)|apply Hu; exact Logic.I]. eapply new_effect; eauto.
  - (* OMoved *) destruct (moved_spec E U AM _ _ _ _ _ I Ty F Hr) as (-> & T & _). cbn in F. destruct F as (_ & y & F1 & F2). eapply view_took; eauto.
  - (* ODtor *) destruct (dtor_spec E U AM _ _ _ _ I Ty F Hr) as (-> & _ & H). unfold look. now rewrite H.
  - (* OMoveAssign *) pose proof (move_spec E U AM _ _ _ _ _ I Ty F Hr) as H. cbn in F. destruct F as (F1 & y & F2 & F3). destruct res as [[]|e|u]; [|destruct H as [-> _]; reflexivity|apply Hu; exact Logic.I].
    destruct H as [[-> ->]|(Hne & Hs & T & _)]; [rewrite Nat.eqb_refl; reflexivity|]. destruct (Nat.eqb_spec o src); [contradiction|]. split; [|eapply view_took; eauto].
    destruct (view_of E s o I Ty F1) as (x & r & t & l & A1 & _ & _ & A4 & _). exists l. destruct (o_sealed x) eqn:Hx; auto. exfalso. apply Hs. exists x. auto.
  - (* OCopy *) destruct res as [[]|e|u]; [|pose proof (copy_spec E U AM _ _ _ _ _ _ _ I Ty F Hr) as (A & B & _); now apply (look_unchanged E)|apply Hu; exact Logic.I]. eapply copy_effect; eauto.
  - (* OCopyFrom *) destruct res as [[]|e|u]; [eapply from_effect; eauto| |apply Hu; exact Logic.I]. pose proof (from_spec E U AM _ _ _ _ _ _ I Ty F Hr) as ((ms & l & M) & _). cbn in F. destruct F as (Ts & _).
    apply (view_failed E AM s s' o ms _ _ l _ I Ty I' Ty' Ts M). intros i m f sp _ (q & w & _ & _ & Hw). apply (sees_iff E AM s src m I Ty). exists i. apply Hw.
  - (* OCopyMatching *) pose proof (cmatch_spec E U AM _ _ _ _ _ I Ty F Hr) as H. cbn in F. destruct F as (F1 & F2 & _). destruct res as [[]|e|u]; [| |apply Hu; exact Logic.I].
    + destruct H as (S & l & _ & H & _). apply (shared_target s s' o src false); auto; [discriminate|]. intros m p q v w Hs. now apply (H m p q v w).
    + destruct H as (S & _). now apply shared_failed.
  - (* OMoveMatching *) pose proof (mmatch_spec E U AM _ _ _ _ _ _ I Ty F Hr) as H. cbn in F. destruct F as (F1 & F2 & _). destruct res as [[]|e|u]; [| |apply Hu; exact Logic.I].
    + destruct H as (S & l & _ & H & _). destruct (Nat.eqb_spec o src) as [->|Hne].
      * destruct (shared_views s s' src src true src I Ty I' Ty' S F1) as (sl & l0 & l1 & A1 & A2 & A3 & _). exists sl, l0, l1. split; auto. split; auto. split; auto. intros m Hm. exfalso. now apply Hm.
      * split; [|now apply shared_source]. apply (shared_target s s' o src true); auto. intros m p q v w Hs. now apply (H m p q v w).
    + destruct H as [-> _]. reflexivity.
  - (* OClear *) pose proof (clear_spec E U AM _ _ _ _ I Ty F Hr) as H. cbn in F. destruct res as [[]|e|u]; [|destruct H as [-> _]; reflexivity|apply Hu; exact Logic.I].
    destruct H as (Hs & _ & x & d & _ & Hx & Hx'). assert (Hxs : o_sealed x = false) by (destruct (o_sealed x) eqn:Hz; auto; exfalso; apply Hs; exists x; auto). split.
    + destruct (view_of E s o I Ty F) as (x1 & r & t & l & A1 & _ & _ & A4 & _). assert (x1 = x) as -> by congruence. exists l. now rewrite <- Hxs.
    + pose proof (view_emptied s' o _ I' Ty' Hx') as V. cbn in V. rewrite Hxs in V. apply V; [discriminate|reflexivity].
  - (* OSeal *) cbn in F, Hr. unfold seal, mod_obj in Hr. destruct (s_obj s o) as [x|] eqn:Hx; [|congruence]. rewrite (bnd_ok _ _ _ _ _ (get_obj_step s o x Hx)) in Hr. injection Hr as <- <-.
    destruct (o_type x) as [r|] eqn:Hxr.
    + destruct (view_of E s o I Ty) as (x1 & r1 & t & l & A1 & A2 & A3 & A4 & A5 & A6); [exists x; split; auto; congruence|]. assert (x1 = x) as -> by congruence. eexists. split; [exact A4|]. cbn [v_mixins].
      assert (Hx' : s_obj (set_obj s o (Some (with_sealed x true))) o = Some (with_sealed x true)) by (cbn; apply upd_same).
      apply (view_here E _ o (with_sealed x true) r1 t l I' Ty' Hx'); [exists (with_sealed x true); auto|]. intros i m v. rewrite (A6 i m v).
      split; intros (p & Hp); exists p; apply (like_holds E AM s (set_obj s o (Some (with_sealed x true))) o o i m p v I Ty ltac:(congruence) (seal_like E s o x true Hx o)); exact Hp.
    + eexists. split; [apply (look_untyped s o x Hx Hxr)|]. cbn [v_mixins]. apply (look_untyped (set_obj s o (Some (with_sealed x true))) o (with_sealed x true)); [cbn; apply upd_same|auto].
  - (* OCMutateTo *) destruct res as [[]|e|u]; [eapply mutation_effect; eauto; reflexivity| |apply Hu; exact Logic.I].
    destruct (mutation_spec E U AM s _ o unw s' (Throw e) I Ty F eq_refl Hr) as (_ & _ & (ms & l & M) & _). cbn in F. destruct F as (Ts & _).
    apply (view_failed E AM s s' o ms _ _ l _ I Ty I' Ty' Ts M). intros i m f sp _ [(k & Hk & _)|[_ Hc]]; [exists k; exact Hk|discriminate].
  - (* OPiecewise *) pose proof (pieces_effect s unw o r ps s' res I Ty I' Ty' F Hr) as H. destruct res as [[]|e|u]; [exact H|exact H|contradiction].
  - (* ODom *) destruct res as [[]|e|u]; [exact Logic.I| |apply Hu; exact Logic.I]. destruct (dom_step E U s op s' _ I Ty F Hr) as (A & B & C & D). apply (look_unchanged E); auto. split; [intros; now rewrite A|]. intros b. apply same_block_eq. now rewrite B.
  - (* OUse *) pose proof (use_effect s o i k s' res I Ty I' Ty' F Hr) as H. destruct res as [[]|e|u]; [exact H|exact H|apply Hu; exact Logic.I].
Qed.
End Abs2.
