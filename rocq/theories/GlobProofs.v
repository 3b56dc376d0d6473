(** Proofs about global definitions *)
From Coq Require Import List Arith ZArith NArith Lia Bool Permutation.
From Verif Require Import Base Sv BaseLemmas Info Registry RegistryProofs TypeMut Rules TypeBuild TypeQuery Domain ElemProofs TypesProofs SpecReg SpecDom SpecOrd SpecRule HistProofs RegTheorems Life LifeProofs
  Define SpecDefine DefineProofs2 WorldProofs Globals SpecGlob.
Import ListNotations.

Section G.
Variable E : env.
Hypothesis RR : regular_rules E.
Variable data : mptr -> option (list rptr).
Variable owner : rptr -> option mptr.
Hypothesis OW : own_rules E data owner.

Definition needs (D : list (dptr * mixin_data)) (x : sobj) (l : list sobj) : Prop :=
  match x with
  | SDomain _ | SObj _ => True
  | SData m => data m <> None
  | SInst m => exists d, In (d, md_of data m) D /\ In (SDomain d) l /\ In (SData m) l
  | SClass d _ => In (SDomain d) l
  end.
Fixpoint good D (l : list sobj) : Prop := match l with [] => True | x :: l' => needs D x l' /\ good D l' end.
Definition once (x : sobj) : bool := match x with SClass _ _ | SObj _ => false | _ => true end.
Record GI (tr : list xop) (s : gst) : Prop := {
  gi_x : xrun E (tidy data) tr (g_w s);
  gi_good : good (open_defs tr) (g_stack s);
  gi_once : NoDup (filter once (g_stack s));
  gi_open : forall d m, In (d, md_of data m) (open_defs tr) -> In (SInst m) (g_stack s);
  gi_gone : forall m, g_gone s m = true -> data m <> None /\ ~ In (SData m) (g_stack s);
  gi_dead : forall d, g_dead s d = true -> ~ In (SDomain d) (g_stack s)
}.
Lemma good_in D l x : good D l -> In x l -> exists l', needs D x l' /\ incl l' l.
Proof.
  induction l as [|y l IH]; intros G; [intros []|]. destruct G as [G1 G2]. intros [->|I]; [exists l; split; auto; now apply incl_tl, incl_refl|].
  destruct (IH G2 I) as (l' & A & B). exists l'. split; auto. now apply incl_tl.
Qed.
Lemma good_ext D D' l : good D l -> (forall d m, In (SInst m) l -> In (d, md_of data m) D -> In (d, md_of data m) D') -> good D' l.
Proof.
  induction l as [|y l IH]; intros G H; [exact Logic.I|]. destruct G as [G1 G2]. split; [|apply IH; auto; intros; apply H; auto; now right].
  destruct y; cbn in *; auto. destruct G1 as (d & A & B). exists d. split; auto.
Qed.
Lemma md_of_eq m rs : data m = Some rs -> {| md_info := m; md_rules := rs |} = md_of data m.
Proof. intros H. unfold md_of. now rewrite H. Qed.
Lemma open_md tr w d md : xrun E (tidy data) tr w -> In (d, md) (open_defs tr) -> md = md_of data (md_info md) /\ data (md_info md) <> None /\ w_mdom w (md_info md) = Some d.
Proof.
  intros H I. destruct (dinv_all E RR data tr w H) as [_ A B _]. pose proof (B _ _ I) as C. split; [|split; [congruence|]].
  - rewrite <- (md_of_eq _ _ C). now rewrite md_eta.
  - apply (A _ _ _ C). now rewrite md_eta.
Qed.
Lemma open_iff tr w m d : xrun E (tidy data) tr w -> data m <> None -> (w_mdom w m = Some d <-> In (d, md_of data m) (open_defs tr)).
Proof.
  intros H N. destruct (data m) as [rs|] eqn:D; [|congruence]. rewrite <- (md_of_eq _ _ D). apply (di_mixins _ _ _ _ (dinv_all E RR data tr w H)). exact D.
Qed.
Lemma xrun_reach tr w : xrun E (tidy data) tr w -> reachable E w.
Proof. intros H. destruct (di_run _ _ _ _ (dinv_all E RR data tr w H)) as (t & R & _). now exists t. Qed.
Lemma inst_data tr s m : GI tr s -> In (SInst m) (g_stack s) -> In (SData m) (g_stack s) /\ exists d, In (d, md_of data m) (open_defs tr) /\ In (SDomain d) (g_stack s).
Proof. intros G I. destruct (good_in _ _ _ (gi_good _ _ G) I) as (l' & (d & A & B & C) & L). split; [auto|]. exists d. auto. Qed.
Lemma asked_pos l d r : 0 < asked l d r -> exists md, In (d, md) l /\ In r (md_rules md).
Proof.
  induction l as [|[d2 md] l IH]; [cbn; lia|]. rewrite asked_cons. intros H. destruct (Nat.eqb_spec d2 d) as [->|]; [|destruct IH as (md2 & A & B); [lia|]; exists md2; split; auto; now right].
  destruct (count_occ Nat.eq_dec (md_rules md) r) as [|n] eqn:C; [destruct IH as (md2 & A & B); [lia|]; exists md2; split; auto; now right|].
  exists md. split; [now left|]. apply (count_occ_In Nat.eq_dec). lia.
Qed.
Lemma usable_now tr s d : GI tr s -> In (SDomain d) (g_stack s) -> usable owner s d = true.
Proof.
  intros G I. unfold usable. pose proof (gi_x _ _ G) as X. rewrite !andb_true_iff, !forallb_forall. split; [split|].
  - destruct (g_dead s d) eqn:D; auto. now destruct (gi_dead _ _ G d D).
  - intros m M. destruct (g_gone s m) eqn:D; auto. exfalso. destruct (gi_gone _ _ G m D) as [N1 N2]. apply visit_in in M. apply In_nth_error in M as [i M].
    destruct (xrun_reach _ _ X) as [t R]. destruct (ei_m1 _ _ (einv_run E _ _ R) _ _ _ M) as [_ M2]. apply (open_iff _ _ _ _ X N1) in M2. apply N2. apply (inst_data _ _ _ G). now apply (gi_open _ _ G d).
  - intros [r c] M. cbn [fst]. destruct (owner r) as [m|] eqn:O; auto. destruct (g_gone s m) eqn:D; auto. exfalso. destruct (gi_gone _ _ G m D) as [N1 N2].
    apply (proj1 (c66 E RR data _ _ X d)) in M as [M1 M2]. destruct OW as [OW1 OW2].
    assert (0 < asked (open_defs tr) d r) as P.
    { unfold canon_count in M1. destruct (s_canonicalize (e_settings E d)); cbn [andb] in M1; [|lia]. destruct (Nat.eqb_spec r (e_canon E d)) as [->|]; [|lia]. rewrite OW2 in O. discriminate. }
    apply asked_pos in P as (md & P1 & P2). destruct (open_md _ _ _ _ X P1) as (Q1 & Q2 & Q3). destruct (data (md_info md)) as [rs|] eqn:DD; [|congruence].
    assert (In r rs) as IR. { rewrite Q1 in P2. unfold md_of in P2. cbn in P2. now rewrite DD in P2. } pose proof (OW1 _ _ _ _ DD IR O) as EQ.
    apply N2. apply (inst_data _ _ _ G). apply (gi_open _ _ G d). rewrite EQ, <- Q1. exact P1.
Qed.

(** ** Before the end *)
Record GO (s : gst) : Prop := {
  go_in : forall l1 l2 r, g_stack s = l1 ++ SObj r :: l2 -> exists t, w_type (g_w s) r = Some t /\ In (SDomain (t_dom t)) l2 /\ forall m, In m (t_mixins t) -> data m <> None -> In (SInst m) l2;
  go_cnt : forall r t, w_type (g_w s) r = Some t -> global_objects r (g_stack s) <= t_nobj t
}.
Lemma global_in r l : In (SObj r) l <-> 0 < global_objects r l.
Proof.
  induction l as [|x l IH]; [cbn; split; [intros []|lia]|]. destruct x as [| | | |r']; cbn [global_objects In]; try (rewrite <- IH; split; [intros [Q|Q]; [discriminate|auto]|auto]).
  destruct (tref_eqb_spec r' r) as [->|N]; [split; [lia|auto]|]. cbn. rewrite <- IH. split; [intros [Q|Q]; [congruence|auto]|auto].
Qed.
Lemma global_split r l : 0 < global_objects r l -> exists l1 l2, l = l1 ++ SObj r :: l2.
Proof. intros H. apply in_split. now apply global_in. Qed.
Lemma go_live s r : GO s -> 0 < global_objects r (g_stack s) -> exists t, w_type (g_w s) r = Some t /\ t_nobj t <> 0.
Proof. intros G H. destruct (global_split _ _ H) as (l1 & l2 & Q). destruct (go_in _ G _ _ _ Q) as (t & T & _). exists t. split; auto. pose proof (go_cnt _ G _ _ T). lia. Qed.
Lemma go_push x s : GO s -> (forall r, x <> SObj r) -> GO (push x s).
Proof.
  intros G N. split; cbn [push g_w g_stack].
  - intros [|y l1] l2 r Q; [cbn in Q; injection Q as -> _; now destruct (N r)|]. cbn in Q. injection Q as _ Q. exact (go_in _ G _ _ _ Q).
  - intros r t T. pose proof (go_cnt _ G _ _ T). destruct x as [| | | |r']; auto. now destruct (N r').
Qed.
Lemma go_world s w' : GO s -> busy_same (g_w s) w' -> GO (with_world s w').
Proof.
  intros G [B1 B2]. split; cbn [with_world g_w g_stack].
  - intros l1 l2 r Q. destruct (go_in _ G _ _ _ Q) as (t & T & X). exists t. split; auto. apply B1; auto. left. destruct (go_live s r G) as (t' & T' & N); [|congruence]. apply global_in. rewrite Q. apply in_or_app. right. now left.
  - intros r t T. destruct (B2 _ _ T) as [T0|Z]; [exact (go_cnt _ G _ _ T0)|]. destruct (Nat.eq_dec (global_objects r (g_stack s)) 0) as [->|NZ]; [lia|].
    destruct (go_live s r G) as (t' & T' & N); [lia|]. rewrite (B1 _ _ T' (or_introl N)) in T. congruence.
Qed.
Lemma go_nobj s r t n : GO s -> w_type (g_w s) r = Some t -> global_objects r (g_stack s) <= n -> GO (with_world s (with_type (g_w s) r (set_nobj t n))).
Proof.
  intros G T L. split; cbn [with_world g_w g_stack with_type w_type]; unfold tupd.
  - intros l1 l2 q Q. destruct (go_in _ G _ _ _ Q) as (t' & T' & X). destruct (tref_eqb_spec q r) as [->|]; [|exists t'; auto]. assert (t' = t) as -> by congruence. eexists. split; [reflexivity|]. exact X.
  - intros q t' T'. destruct (tref_eqb_spec q r) as [->|]; [injection T' as <-; exact L|]. exact (go_cnt _ G _ _ T').
Qed.
Lemma go_need_domain s d s' : GO s -> need_domain s d = Some s' -> GO s'.
Proof. unfold need_domain. intros G. destruct (g_dead s d); [discriminate|]. destruct (existsb _ _); intros [= <-]; auto. apply go_push; [auto|discriminate]. Qed.
Lemma go_need_data s d s' : GO s -> need_data s d = Some s' -> GO s'.
Proof. unfold need_data. intros G. destruct (g_gone s d); [discriminate|]. destruct (existsb _ _); intros [= <-]; auto. apply go_push; [auto|discriminate]. Qed.
Lemma add_rules_types d rs : forall w w' x, add_rules E w d rs = (w', x) -> w_type w' = w_type w.
Proof.
  induction rs as [|r rs IH]; intros w w' x H; cbn in H; [now injection H as <- _|]. unfold add_rule in H. destruct (r_apply (e_rule E r)); [|now injection H as <- _]. destruct (rules_incr E r _) as [l b]. rewrite (IH _ _ _ H). reflexivity.
Qed.
Lemma register_busy w d md w' x : register_in E w d md = (w', x) -> busy_same w w'.
Proof.
  unfold register_in. intros H. destruct (add_rules E w d (md_rules md)) as [w1 y] eqn:A. apply add_rules_types in A. apply busy_eq. destruct y; [|injection H as <- _; auto|injection H as <- _; auto].
  pose proof (register_mixin_type E w1 d (md_info md)) as Q. rewrite H in Q. cbn in Q. congruence.
Qed.
Definition fresh (s : gst) : Prop := (forall d, g_dead s d = false) /\ (forall m, g_gone s m = false).
Lemma need_domain_ok tr s d : GI tr s -> fresh s -> exists s', need_domain s d = Some s' /\ GI tr s' /\ fresh s' /\ In (SDomain d) (g_stack s') /\ g_w s' = g_w s /\ incl (g_stack s) (g_stack s').
Proof.
  intros G F. unfold need_domain. rewrite (proj1 F). destruct (existsb _ (g_stack s)) eqn:X; eexists; (split; [reflexivity|]).
  - apply existsb_exists in X as ([d2| | | |] & A & B); try discriminate. apply Nat.eqb_eq in B as ->. auto 6 using incl_refl.
  - assert (~ In (SDomain d) (g_stack s)) as N. { intros I. assert (existsb (fun x => match x with SDomain d' => d' =? d | _ => false end) (g_stack s) = true); [|congruence]. apply existsb_exists. exists (SDomain d). split; auto. apply Nat.eqb_refl. }
    split; [|split; [exact F|split; [now left|split; [auto|cbn; now apply incl_tl, incl_refl]]]]. destruct G as [G1 G2 G3 G4 G5 G6]. split; cbn; auto.
    + constructor; auto. intros I. apply filter_In in I as [I _]. auto.
    + intros d2 m I. right. eauto.
    + intros m I. rewrite (proj2 F) in I. discriminate.
    + intros d2 I. rewrite (proj1 F) in I. discriminate.
Qed.
Lemma need_data_ok tr s m : GI tr s -> fresh s -> data m <> None -> exists s', need_data s m = Some s' /\ GI tr s' /\ fresh s' /\ In (SData m) (g_stack s') /\ g_w s' = g_w s.
Proof.
  intros G F ND. unfold need_data. rewrite (proj2 F). destruct (existsb _ (g_stack s)) eqn:X; eexists; (split; [reflexivity|]).
  - apply existsb_exists in X as ([|m2| | |] & A & B); try discriminate. apply Nat.eqb_eq in B as ->. auto 6.
  - assert (~ In (SData m) (g_stack s)) as N. { intros I. assert (existsb (fun x => match x with SData d' => d' =? m | _ => false end) (g_stack s) = true); [|congruence]. apply existsb_exists. exists (SData m). split; auto. apply Nat.eqb_refl. }
    split; [|split; [exact F|split; [now left|auto]]]. destruct G as [G1 G2 G3 G4 G5 G6]. split; cbn; auto.
    + constructor; auto. intros I. apply filter_In in I as [I _]. auto.
    + intros d2 m2 I. right. eauto.
    + intros m2 I. rewrite (proj2 F) in I. discriminate.
    + intros d2 I. rewrite (proj1 F) in I. discriminate.
Qed.
Lemma gi_dom tr s o w' r : GI tr s -> tidy data tr (g_w s) (XDom o) -> dstep E (g_w s) o = (w', r) -> ~ is_ub r -> GI (tr ++ [XDom o]) (with_world s w').
Proof.
  intros [G1 G2 G3 G4 G5 G6] T S U. assert (open_defs (tr ++ [XDom o]) = open_defs tr) as Q by (rewrite open_snoc; reflexivity). split; cbn; rewrite ?Q; auto. eapply xr_dom; eauto.
Qed.
Lemma gi_define tr s d m w' : GI tr s -> data m <> None -> In (SDomain d) (g_stack s) -> In (SData m) (g_stack s) -> register_in E (g_w s) d (md_of data m) = (w', Ok tt) ->
  GI (tr ++ [XDefine d (md_of data m)]) (push (SInst m) (with_world s w')).
Proof.
  intros [G1 G2 G3 G4 G5 G6] ND I1 I2 R. assert (open_defs (tr ++ [XDefine d (md_of data m)]) = (d, md_of data m) :: open_defs tr) as Q by (rewrite open_snoc; reflexivity).
  assert (xrun E (tidy data) (tr ++ [XDefine d (md_of data m)]) w') as X. { eapply xr_define; eauto. cbn. destruct (data m); congruence. }
  assert (~ In (SInst m) (g_stack s)) as NI.
  { intros I. destruct (good_in _ _ _ G2 I) as (l' & (d2 & A & _) & _). pose proof (di_nodup _ _ _ _ (dinv_all E RR data _ _ X)) as N. rewrite Q in N. cbn in N. inversion_clear N as [|? ? N1 N2].
    apply N1. apply in_map_iff. exists (d2, md_of data m). auto. }
  split; cbn; rewrite ?Q; auto.
  - split; [exists d; split; [now left|auto]|]. eapply good_ext; eauto. intros d2 m2 _ I. now right.
  - constructor; auto. intros I. apply filter_In in I as [I _]. auto.
  - intros d2 m2 [I|I]; [injection I as _ I _; now left; rewrite I|]. right. eauto.
  - intros m2 I. destruct (G5 m2 I) as [A B]. split; auto. intros [C|C]; [discriminate|auto].
  - intros d2 I [C|C]; [discriminate|]. exact (G6 d2 I C).
Qed.
Lemma on_ok tr s d k s0 : GI tr s -> fresh s -> exists s2, need_domain s d = Some s2 /\ GI tr s2 /\ fresh s2 /\ In (SDomain d) (g_stack s2) /\ g_w s2 = g_w s /\ incl (g_stack s) (g_stack s2) /\ on owner (Some s) d k s0 = k s2.
Proof.
  intros G F. destruct (need_domain_ok tr s d G F) as (s2 & A & B & C & D & H & I). exists s2. do 6 (split; auto). unfold on. rewrite A, (usable_now _ _ _ B D). reflexivity.
Qed.
Lemma done_ends {A} s (wr : world * res A) e : (g_w (fst (done s wr e)), snd (done s wr e)) = (fst wr, ends_as (snd wr) e).
Proof. destruct wr as [w [x|x|x]]; reflexivity. Qed.
Lemma completed_ends x r : (g_w (fst (completed x r)), snd (completed x r)) = (g_w (fst r), snd r).
Proof. destruct r as [s [| |u]]; reflexivity. Qed.
Lemma ginit_go : GO (g_init E).
Proof. split; cbn; [intros [|] l2 r Q; discriminate|intros; lia]. Qed.
Lemma ginit : GI [] (g_init E) /\ fresh (g_init E).
Proof. split; [|split; reflexivity]. split; cbn; auto; try discriminate; try (intros ? ? []). constructor. constructor. Qed.
Definition defs_of (tr : list gop) : list (dptr * mixin_data) := map (fun x => (fst x, md_of data (snd x))) (definitions tr).
Lemma tidy_of tr s o : orderly data s (GCall o) -> tidy data tr (g_w s) (XDom o).
Proof. destruct o; cbn; auto. Qed.
Lemma dom_of w r t : reachable E w -> w_type w r = Some t -> on_domain w (DNewObj r) = Some (t_dom t).
Proof. intros R T. cbn. destruct r as [d|n]; [|now rewrite T]. destruct (type_empty E w d R) as (k & Q). rewrite Q in T. injection T as <-. reflexivity. Qed.
Lemma type_mixins w r t m : reachable E w -> w_type w r = Some t -> In m (t_mixins t) -> w_mdom w m = Some (t_dom t).
Proof. intros R T I. destruct (type_cases E w r t R T) as [(k & _ & Q)|[(_ & _ & _ & M & _) _]]; [rewrite Q in I; destruct I|auto]. Qed.
Lemma started tr s : grun E data owner (orderly data) tr s -> fresh s /\ GO s /\ exists x, GI x s /\ Permutation (open_defs x) (defs_of tr).
Proof.
  induction 1 as [|tr s o s' H (F & GG & x & G & P) O S]; [destruct ginit; split; auto; split; [exact ginit_go|]; exists []; split; auto|].
  unfold defs_of, definitions in *. rewrite flat_map_app, map_app. cbn [flat_map]. destruct o as [d|m|d m|d c|r|o]; cbn [gstep] in S; rewrite ?app_nil_r; cbn [map app].
  - destruct (need_domain_ok x s d G F) as (s2 & A & B & C & _). pose proof (go_need_domain _ _ _ GG A). rewrite A in S. injection S as <-. split; auto. split; auto. exists x. auto.
  - cbn [orderly] in O. destruct (need_data_ok x s m G F O) as (s2 & A & B & C & _). pose proof (go_need_data _ _ _ GG A). rewrite A in S. injection S as <-. split; auto. split; auto. exists x. auto.
  - cbn [orderly] in O. destruct (need_data_ok x s m G F O) as (s1 & A & B & C & I1 & W1). pose proof (go_need_data _ _ _ GG A) as GG1. rewrite A in S.
    destruct (on_ok x s1 d (fun s2 => done s2 (register_in E (g_w s2) d (md_of data m)) ETerminates) s B C) as (s2 & A2 & B2 & C2 & I2 & W2 & IN & ON).
    pose proof (go_need_domain _ _ _ GG1 A2) as GG2. rewrite ON in S. destruct (register_in E (g_w s2) d (md_of data m)) as [w' [[]|e|u]] eqn:R; try discriminate. cbn in S. injection S as <-. split; [exact C2|].
    split; [apply go_push; [|discriminate]; apply go_world; [auto|eapply register_busy; eauto]|].
    exists (x ++ [XDefine d (md_of data m)]). split; [apply gi_define; auto|]. rewrite open_snoc. cbn [defs_step]. rewrite P. apply Permutation_cons_append.
  - destruct (on_ok x s d (fun s2 => done s2 (dstep E (g_w s2) (DRegTc d c)) ETerminates) s G F) as (s2 & A2 & B2 & C2 & I2 & W2 & IN & ON). pose proof (go_need_domain _ _ _ GG A2) as GG2.
    rewrite ON in S. destruct (dstep E (g_w s2) (DRegTc d c)) as [w' [y|e|u]] eqn:R; try discriminate. cbn in S. injection S as <-. split; [exact C2|].
    split; [apply go_push; [|discriminate]; apply go_world; [auto|exact (dstep_busy E _ (DRegTc d c) _ _ (xrun_reach _ _ (gi_x _ _ B2)) Logic.I R (fun f => f))]|].
    exists (x ++ [XDom (DRegTc d c)]). split; [|rewrite open_snoc; exact P]. destruct (gi_dom x s2 (DRegTc d c) w' (Ok y) B2 Logic.I R (fun f => f)) as [G1 G2 G3 G4 G5 G6]. split; auto.
    + cbn in *. auto.
    + cbn. intros d2 m2 I. right. eauto.
    + cbn. intros m2 I. destruct (G5 m2 I) as [Y Z]. split; auto. intros [Q|Q]; [discriminate|auto].
    + cbn. intros d2 I [Q|Q]; [discriminate|]. exact (G6 d2 I Q).
  - destruct (on_domain (g_w s) (DNewObj r)) as [d|] eqn:OD; [|discriminate].
    destruct (on_ok x s d (fun s2 => done s2 (dstep E (g_w s2) (DNewObj r)) ETerminates) s G F) as (s2 & A2 & B2 & C2 & I2 & W2 & IN & ON). pose proof (go_need_domain _ _ _ GG A2) as GG2.
    rewrite ON in S. destruct (dstep E (g_w s2) (DNewObj r)) as [w' [y|e|u]] eqn:R; try discriminate. cbn in S. injection S as <-. split; [exact C2|].
    pose proof (xrun_reach _ _ (gi_x _ _ B2)) as RE. destruct (gi_dom x s2 (DNewObj r) w' (Ok y) B2 Logic.I R (fun f => f)) as [G1 G2 G3 G4 G5 G6].
    cbn in R. unfold incr_nobj, forget in R. destruct (w_type (g_w s2) r) as [t|] eqn:T; [|discriminate]. cbn in R. injection R as <- <-.
    assert (t_dom t = d) as TD. { pose proof (dom_of _ _ _ RE T) as Q. rewrite W2, OD in Q. congruence. } split.
    { pose proof (go_nobj s2 r t (S (t_nobj t)) GG2 T ltac:(pose proof (go_cnt _ GG2 _ _ T); lia)) as [N1 N2]. split; cbn [push with_world g_w g_stack with_type w_type] in *.
      - intros [|z l1] l2 q Q; cbn in Q.
        + injection Q as <- <-. unfold tupd. destruct (tref_eqb_spec r r); [|congruence]. eexists. split; [reflexivity|]. cbn. rewrite TD. split; auto. intros m M ND. apply (gi_open _ _ B2 (t_dom t)).
          apply (open_iff _ _ _ _ (gi_x _ _ B2) ND). eapply type_mixins; eauto.
        + injection Q as _ Q. eauto.
      - intros q t' T'. cbn [global_objects]. destruct (tref_eqb_spec r q) as [<-|N]; [|exact (N2 _ _ T')]. unfold tupd in T'. destruct (tref_eqb_spec r r); [|congruence]. injection T' as <-. cbn. pose proof (go_cnt _ GG2 _ _ T). lia. }
    exists (x ++ [XDom (DNewObj r)]). split; [|rewrite open_snoc; exact P]. split; auto.
    + cbn in *. auto.
    + cbn. intros d2 m2 I. right. eauto.
    + cbn. intros m2 I. destruct (G5 m2 I) as [Y Z]. split; auto. intros [Q|Q]; [discriminate|auto].
    + cbn. intros d2 I [Q|Q]; [discriminate|]. exact (G6 d2 I Q).
  - destruct (on_domain (g_w s) o) as [d|]; [|discriminate]. destruct (on_ok x s d (fun s2 => done s2 (dstep E (g_w s2) o) EReturns) s G F) as (s2 & A2 & B2 & C2 & I2 & W2 & IN & ON). pose proof (go_need_domain _ _ _ GG A2) as GG2.
    rewrite ON in S. destruct (dstep E (g_w s2) o) as [w' r] eqn:R. assert (s' = with_world s2 w' /\ ~ is_ub r) as [-> U]. { destruct r; cbn in S; try discriminate; injection S as <-; cbn; auto. }
    split; [exact C2|]. split; [|exists (x ++ [XDom o]); split; [|rewrite open_snoc; exact P]; eapply gi_dom; eauto; rewrite W2; now apply tidy_of].
    assert (GS : forall q, global_objects q (g_stack s2) = global_objects q (g_stack s)).
    { intros q. unfold need_domain in A2. destruct (g_dead s d); [discriminate|]. injection A2 as <-. destruct (existsb _ _); reflexivity. }
    assert (plain o \/ (exists q, o = DNewObj q) \/ exists q, o = DDelObj q) as [PL|[[q ->]|[q ->]]] by (destruct o; cbn; eauto).
    + apply go_world; auto. eapply dstep_busy; eauto. exact (xrun_reach _ _ (gi_x _ _ B2)).
    + cbn in R. unfold incr_nobj, forget in R. destruct (w_type (g_w s2) q) as [t|] eqn:T; [|injection R as <- <-; now destruct U]. cbn in R. injection R as <- _. apply go_nobj; auto. pose proof (go_cnt _ GG2 _ _ T). lia.
    + cbn in R. unfold decr_nobj, forget in R. destruct (w_type (g_w s2) q) as [t|] eqn:T; [|injection R as <- <-; now destruct U]. destruct (t_nobj t) as [|n] eqn:NO; [injection R as <- <-; now destruct U|]. cbn in R. injection R as <- _.
      apply go_nobj; auto. cbn in O. rewrite <- W2 in O. specialize (O _ T). rewrite GS. lia.
Qed.
Lemma c90_start tr s o : grun E data owner (orderly data) tr s -> orderly data s o ->
  let run {A} (wr : world * res A) (uncaught : ended) := (fst wr, ends_as (snd wr) uncaught) in
  (g_w (fst (gstep E data owner s o)), snd (gstep E data owner s o)) = match o with
    | GGet _ | GInfo _ => (g_w s, EReturns)
    | GDefine d m => run (register_in E (g_w s) d (md_of data m)) ETerminates
    | GClass d c => run (dstep E (g_w s) (DRegTc d c)) ETerminates
    | GObj r => match on_domain (g_w s) (DNewObj r) with Some _ => run (dstep E (g_w s) (DNewObj r)) ETerminates | None => (g_w s, EUb UbDangling) end
    | GCall c => match on_domain (g_w s) c with Some _ => run (dstep E (g_w s) c) EReturns | None => (g_w s, EUb UbDangling) end
    end.
Proof.
  intros H O run. destruct (started tr s H) as (F & _ & x & G & _). destruct o as [d|m|d m|d c|r|o]; cbn [gstep orderly] in *; rewrite ?completed_ends.
  - destruct (need_domain_ok x s d G F) as (s2 & A & _ & _ & _ & W & _). rewrite A. cbn. now rewrite W.
  - destruct (need_data_ok x s m G F O) as (s2 & A & _ & _ & _ & W). rewrite A. cbn. now rewrite W.
  - destruct (need_data_ok x s m G F O) as (s1 & A & B & C & I1 & W1). rewrite A. destruct (on_ok x s1 d (fun s2 => done s2 (register_in E (g_w s2) d (md_of data m)) ETerminates) s B C) as (s2 & _ & _ & _ & _ & W2 & _ & ON).
    now rewrite ON, done_ends, W2, W1.
  - destruct (on_ok x s d (fun s2 => done s2 (dstep E (g_w s2) (DRegTc d c)) ETerminates) s G F) as (s2 & _ & _ & _ & _ & W2 & _ & ON). now rewrite ON, done_ends, W2.
  - destruct (on_domain (g_w s) (DNewObj r)) as [d|]; auto. rewrite completed_ends. destruct (on_ok x s d (fun s2 => done s2 (dstep E (g_w s2) (DNewObj r)) ETerminates) s G F) as (s2 & _ & _ & _ & _ & W2 & _ & ON). now rewrite ON, done_ends, W2.
  - destruct (on_domain (g_w s) o) as [d|]; auto. destruct (on_ok x s d (fun s2 => done s2 (dstep E (g_w s2) o) EReturns) s G F) as (s2 & _ & _ & _ & _ & W2 & _ & ON). now rewrite ON, done_ends, W2.
Qed.
Lemma asked_perm l l' d r : Permutation l l' -> asked l d r = asked l' d r.
Proof. induction 1 as [|[d1 x] l l' _ IH|[d1 x] [d2 y] l|l1 l2 l3 _ IH1 _ IH2]; rewrite ?asked_cons; lia. Qed.
Lemma c90_order tr s tr' s' : grun E data owner (orderly data) tr s -> grun E data owner (orderly data) tr' s' -> Permutation (definitions tr) (definitions tr') -> forall d,
  (forall r c, In (r, c) (d_rules (w_dom (g_w s) d)) <-> In (r, c) (d_rules (w_dom (g_w s') d))) /\
  (forall m, data m <> None -> (w_mdom (g_w s) m = Some d <-> In (d, m) (definitions tr)) /\ (w_mdom (g_w s') m = Some d <-> In (d, m) (definitions tr))).
Proof.
  intros H H' P d. destruct (started tr s H) as (_ & _ & x & G & Q). destruct (started tr' s' H') as (_ & _ & x' & G' & Q').
  assert (Permutation (open_defs x) (open_defs x')) as R. { rewrite Q, Q'. unfold defs_of. now apply Permutation_map. } split.
  - intros r c. rewrite (proj1 (c66 E RR data _ _ (gi_x _ _ G) d)), (proj1 (c66 E RR data _ _ (gi_x _ _ G') d)), (asked_perm _ _ d r R). tauto.
  - intros m N. assert (In (d, md_of data m) (open_defs x) <-> In (d, m) (definitions tr)) as J.
    { split; intros I.
      - apply (Permutation_in _ Q) in I. apply in_map_iff in I as ([d2 m2] & I1 & I2). cbn in I1. injection I1 as -> -> _. exact I2.
      - apply (Permutation_in _ (Permutation_sym Q)). apply in_map_iff. exists (d, m). auto. }
    rewrite (open_iff _ _ m d (gi_x _ _ G) N), (open_iff _ _ m d (gi_x _ _ G') N), <- J. split; [tauto|]. split; apply Permutation_in; auto. now apply Permutation_sym.
Qed.

(** ** The end *)
Lemma remove_rules_types d rs : forall w w' e, remove_rules E w d rs = (w', e) -> w_type w' = w_type w.
Proof.
  induction rs as [|r rs IH]; intros w w' e H; cbn in H; [now injection H as <- _|]. unfold remove_rule in H. destruct (rules_decr E r (d_rules (w_dom w d))) as [[l b]|x|u]; [|now injection H as <- _|now injection H as <- _].
  apply IH in H. rewrite H. reflexivity.
Qed.
Lemma end_types w md w' e : end_definition E w md = (w', e) -> forall r t, w_type w' r = Some t -> w_type w r = Some t.
Proof.
  unfold end_definition, unregister_from, unregister_mixin. intros H r t. destruct (w_mdom w (md_info md)) as [d|]; [|now injection H as <- _].
  destruct (purge_types w d (md_info md)) as [w1|x|u] eqn:P; [|now injection H as <- _|now injection H as <- _].
  assert (w_type w1 r = Some t -> w_type w r = Some t) as Q.
  { unfold purge_types in P. destruct (existsb _ _); [discriminate|]. destruct (existsb _ _); [discriminate|]. injection P as <-. cbn. rewrite free_types_spec. destruct (existsb _ _); [discriminate|auto]. }
  unfold unregister_mixin_elem in H. destruct (basic_unregister _ _ _) as [sp|x|u]; [|injection H as <- _; exact Q|injection H as <- _; exact Q]. rewrite (remove_rules_types _ _ _ _ _ H). cbn. exact Q.
Qed.
Lemma remove_rules_tcs d rs : forall w w' e, remove_rules E w d rs = (w', e) -> forall d2, d_tcs (w_dom w' d2) = d_tcs (w_dom w d2).
Proof.
  induction rs as [|r rs IH]; intros w w' e H d2; cbn in H; [now injection H as <- _|]. unfold remove_rule in H. destruct (rules_decr E r (d_rules (w_dom w d))) as [[l b]|x|u]; [|now injection H as <- _|now injection H as <- _].
  rewrite (IH _ _ _ H d2). cbn. unfold upd. destruct (Nat.eqb_spec d2 d) as [->|]; reflexivity.
Qed.
Lemma end_tcs w md w' e : end_definition E w md = (w', e) -> forall d2, d_tcs (w_dom w' d2) = d_tcs (w_dom w d2).
Proof.
  unfold end_definition, unregister_from, unregister_mixin. intros H d2. destruct (w_mdom w (md_info md)) as [d|]; [|now injection H as <- _].
  destruct (purge_types w d (md_info md)) as [w1|x|u] eqn:P; [|now injection H as <- _|now injection H as <- _].
  assert (d_tcs (w_dom w1 d2) = d_tcs (w_dom w d2)) as Q.
  { unfold purge_types in P. destruct (existsb _ _); [discriminate|]. destruct (existsb _ _); [discriminate|]. injection P as <-. cbn. unfold upd. destruct (Nat.eqb_spec d2 d) as [->|]; reflexivity. }
  unfold unregister_mixin_elem in H. destruct (basic_unregister _ _ _) as [sp|x|u]; [|injection H as <- _; exact Q|injection H as <- _; exact Q]. rewrite (remove_rules_tcs _ _ _ _ _ H), <- Q. cbn.
  unfold upd. destruct (Nat.eqb_spec d2 d) as [->|]; reflexivity.
Qed.
Lemma unreg_tcs w d c w' : reachable E w -> dstep E w (DUnregTc d c) = (w', Ok None) -> forall d2 c2, In (Some c2) (d_tcs (w_dom w' d2)) -> In (Some c2) (d_tcs (w_dom w d2)) /\ SClass d c <> SClass d2 c2.
Proof.
  intros [t R] S d2 c2 I. assert (R2 : run E (init_world E) (t ++ [(DUnregTc d c, Ok None)]) w') by (eapply run_snoc; eauto).
  apply (proj1 (run_tcs E _ _ d2 R2)) in I. unfold tc_registered in I. rewrite fold_left_app in I. cbn [fold_left tc_step] in I. fold (tc_registered t d2) in I. destruct (Nat.eqb_spec d d2) as [->|N].
  - destruct (c2 =? c) eqn:Q; [discriminate|]. apply Nat.eqb_neq in Q. split; [now apply (proj1 (run_tcs E _ _ d2 R))|congruence].
  - split; [now apply (proj1 (run_tcs E _ _ d2 R))|congruence].
Qed.
Lemma end_busy w md w' : reachable E w -> end_definition E w md = (w', EReturns) -> busy_same w w'.
Proof.
  intros R H. unfold end_definition in H. destruct (w_mdom w (md_info md)) as [d|]; [|injection H as <-; now apply busy_eq]. unfold unregister_from in H.
  destruct (unregister_mixin w d (md_info md)) as [w1 [[]|e|u]] eqn:U; try discriminate. apply busy_trans with w1.
  - apply (dstep_busy E w (DUnregMixin d (md_info md)) w1 (Ok None) R Logic.I); [|auto]. cbn. unfold forget. now rewrite U.
  - apply busy_eq. exact (remove_rules_types _ _ _ _ _ H).
Qed.
Lemma go_same s s' : GO s -> g_w s' = g_w s -> g_stack s' = g_stack s -> GO s'.
Proof. intros [A B] W S. split; rewrite W, S; auto. Qed.
Lemma go_pop s x l : GO s -> g_stack s = x :: l -> GO (pop s l).
Proof.
  intros G ST. split; cbn [pop g_w g_stack].
  - intros l1 l2 r Q. apply (go_in _ G (x :: l1)). rewrite ST, Q. reflexivity.
  - intros r t T. pose proof (go_cnt _ G _ _ T) as C. rewrite ST in C. cbn [global_objects] in C. destruct x; lia.
Qed.
Lemma go_below s x l r t : GO s -> g_stack s = x :: l -> (forall q, x <> SObj q) -> w_type (g_w s) r = Some t -> 0 < global_objects r (g_stack s) ->
  In (SDomain (t_dom t)) l /\ forall m, In m (t_mixins t) -> data m <> None -> In (SInst m) l.
Proof.
  intros G ST N T P. destruct (global_split _ _ P) as (l1 & l2 & Q). destruct (go_in _ G _ _ _ Q) as (t' & T' & A & B). assert (t' = t) as -> by congruence.
  rewrite ST in Q. destruct l1 as [|y l1]; cbn in Q; [injection Q as -> _; now destruct (N r)|]. injection Q as _ ->. split; [apply in_or_app; right; now right|]. intros m M D. apply in_or_app. right. right. auto.
Qed.
Lemma end_step tr s x l : GI tr s -> GO s -> g_stack s = x :: l -> only_globals s ->
  exists s1 tr1, destroy E data owner (pop s l) x = (s1, EReturns) /\ GI tr1 s1 /\ g_stack s1 = l /\ only_globals s1 /\ GO s1 /\
    (forall d, g_dead s1 d = true <-> g_dead s d = true \/ x = SDomain d) /\ (forall m, g_gone s1 m = true <-> g_gone s m = true \/ x = SData m) /\
    (forall d, x = SDomain d -> left_clean E data (g_w s) d) /\
    (forall d c, In (Some c) (d_tcs (w_dom (g_w s1) d)) -> In (Some c) (d_tcs (w_dom (g_w s) d)) /\ x <> SClass d c).
Proof.
  intros G GG ST NO. pose proof (go_pop s x l GG ST) as GP. pose proof (fun r t => go_below s x l r t GG ST) as BE. assert (RE0 := xrun_reach _ _ (gi_x _ _ G)). pose proof G as [G1 G2 G3 G4 G5 G6]. unfold only_globals in NO. rewrite ST in *. destruct G2 as [N G2]. cbn [filter] in G3. destruct x as [d|m|m|d c|ro]; cbn [destroy pop g_w g_gone g_dead g_stack once] in *.
  - inversion_clear G3 as [|? ? G31 G32]. assert (NI : ~ In (SDomain d) l). { intros I. apply G31. apply filter_In. auto. }
    assert (destroy_domain E (g_w s) d <> Ub UbDangling /\ exists w, destroy_domain E (g_w s) d = Ok w) as [_ [w D]].
    { unfold destroy_domain. assert (Q : existsb (fun r => negb (ref_nobj (g_w s) r =? 0)) (TEmpty d :: d_types (w_dom (g_w s) d)) = false).
      { apply existsb_no. intros r RI. unfold ref_nobj. destruct (w_type (g_w s) r) as [t|] eqn:T; auto. rewrite (NO _ _ T). destruct (global_objects r (SDomain d :: l)) as [|n] eqn:GN; [reflexivity|exfalso].
        destruct (BE r t) as [BD _]; auto; [discriminate|lia|]. assert (t_dom t = d) as TD; [|rewrite TD in BD; auto]. destruct RI as [<-|RI].
        - destruct (type_empty E (g_w s) d RE0) as (k & Q). rewrite Q in T. injection T as <-. reflexivity.
        - destruct (winv_reachable _ _ RE0) as [_ HT]. destruct (ti_types _ _ HT _ _ RI) as (n' & t' & _ & _ & T' & Ok'). assert (t' = t) as -> by congruence. apply Ok'. }
      rewrite Q. split; [discriminate|eauto]. }
    rewrite D. eexists. exists tr. split; [reflexivity|]. cbn. assert (OP : forall md, ~ In (d, md) (open_defs tr)).
    { intros md I. destruct (open_md _ _ _ _ G1 I) as (A & _ & C). rewrite A in I. destruct (G4 _ _ I) as [J|J]; [discriminate|]. destruct (good_in _ _ _ G2 J) as (l' & (d2 & B1 & B2 & _) & L).
      destruct (open_md _ _ _ _ G1 B1) as (_ & _ & C2). cbn [md_of md_info] in C2. rewrite C in C2. injection C2 as <-. auto. }
    split; [split; cbn; auto|split; [auto|split; [exact NO|split; [apply (go_same (pop s l)); auto|]]]].
    + intros d2 m I. destruct (G4 _ _ I) as [J|J]; [discriminate|auto].
    + intros m I. destruct (G5 m I) as [A B]. split; [auto|]. intros J. apply B. now right.
    + intros d2. unfold upd. destruct (Nat.eqb_spec d2 d) as [->|]; auto. intros I J. apply (G6 d2 I). now right.
    + split; [|split; [|split; [|split; [auto|discriminate]]]].
      * intros d2. unfold upd. destruct (Nat.eqb_spec d2 d) as [->|Z]; [tauto|]. split; [auto|]. intros [Q|Q]; [auto|congruence].
      * intros m. split; [auto|]. intros [Q|Q]; [auto|discriminate].
      * intros d2 Q. injection Q as <-. split.
        -- intros m ND M. apply (open_iff _ _ _ _ G1 ND) in M. exact (OP _ M).
        -- intros r c. rewrite (proj1 (c66 E RR data _ _ G1 d)). assert (asked (open_defs tr) d r = 0) as ->; [|rewrite Nat.add_0_r; tauto].
           destruct (asked (open_defs tr) d r) eqn:A; auto. destruct (asked_pos (open_defs tr) d r) as (md & I & _); [lia|]. now apply OP in I.
  - inversion_clear G3 as [|? ? G31 G32]. assert (NI : ~ In (SData m) l). { intros I. apply G31. apply filter_In. auto. }
    eexists. exists tr. split; [reflexivity|]. cbn. split; [split; cbn; auto|split; [auto|split; [exact NO|split; [apply (go_same (pop s l)); auto|]]]].
    + intros d2 m2 I. destruct (G4 _ _ I) as [J|J]; [discriminate|auto].
    + intros m2. unfold upd. destruct (Nat.eqb_spec m2 m) as [->|]; auto. intros I. destruct (G5 m2 I) as [A B]. split; [auto|]. intros J. apply B. now right.
    + intros d2 I J. apply (G6 d2 I). now right.
    + split; [|split; [|split; [|split; [auto|discriminate]]]].
      * intros d2. split; [auto|]. intros [Q|Q]; [auto|discriminate].
      * intros m2. unfold upd. destruct (Nat.eqb_spec m2 m) as [->|Z]; [tauto|]. split; [auto|]. intros [Q|Q]; [auto|congruence].
      * discriminate.
  - inversion_clear G3 as [|? ? G31 G32]. assert (NI : ~ In (SInst m) l). { intros I. apply G31. apply filter_In. auto. }
    destruct N as (d & N1 & N2 & N3). assert (g_gone s m = false) as GN. { destruct (g_gone s m) eqn:Q; auto. destruct (G5 m Q) as [_ B]. destruct B. now right. }
    rewrite GN. destruct (open_md _ _ _ _ G1 N1) as (A & ND & C). cbn [md_of md_info] in ND, C. rewrite C. change (usable owner (pop s l) d) with (usable owner s d).
    rewrite (usable_now tr s d G); [|rewrite ST; now right]. assert (RE := xrun_reach _ _ G1).
    assert (snd (end_definition E (g_w s) (md_of data m)) = EReturns) as EN. { apply (end_returns E RR); auto. intros r t T M. rewrite (NO r t T). destruct (global_objects r (SInst m :: l)) as [|n] eqn:GNO; [reflexivity|exfalso].
      apply NI. destruct (BE r t) as [_ BI]; auto; [discriminate|lia]. }
    destruct (end_definition E (g_w s) (md_of data m)) as [w' e] eqn:ED. cbn in EN. subst e. eexists. exists (tr ++ [XEnd (md_of data m)]). split; [reflexivity|].
    assert (open_defs (tr ++ [XEnd (md_of data m)]) = filter (fun x => negb (md_info (snd x) =? m)) (open_defs tr)) as Q by (rewrite open_snoc; reflexivity).
    cbn. pose proof (go_world _ _ GP (end_busy _ _ _ RE ED)) as GW. split; [split; cbn; rewrite ?Q; auto|split; [auto|split; [|split; [exact GW|]]]].
    + eapply xr_end; eauto. cbn. destruct (data m); congruence.
    + eapply good_ext; eauto. intros d2 m2 I J. apply filter_In. split; auto. cbn. destruct (Nat.eqb_spec m2 m) as [->|]; auto.
    + intros d2 m2 I. apply filter_In in I as [I K]. cbn in K. destruct (G4 _ _ I) as [J|J]; [|auto]. injection J as ->. rewrite Nat.eqb_refl in K. discriminate.
    + intros m2 I. destruct (G5 m2 I) as [A2 B2]. split; [auto|]. intros J. apply B2. now right.
    + intros d2 I J. apply (G6 d2 I). now right.
    + intros r t T. cbn in T. apply (NO r). eapply end_types; eauto.
    + split; [|split; [|split]]; [intros d2; split; [auto|]; intros [K|K]; [auto|discriminate]|intros m2; split; [auto|]; intros [K|K]; [auto|discriminate]|discriminate|].
      intros d2 c2. rewrite (end_tcs _ _ _ _ ED). split; [auto|discriminate].
  - change (usable owner (pop s l) d) with (usable owner s d). rewrite (usable_now tr s d G); [|rewrite ST; now right]. cbn in N.
    destruct (dstep E (g_w s) (DUnregTc d c)) as [w' r] eqn:DS. assert (w_type w' = w_type (g_w s) /\ r = Ok None) as [WT ->]. { cbn in DS. injection DS as <- <-. split; reflexivity. }
    eexists. exists (tr ++ [XDom (DUnregTc d c)]). split; [reflexivity|]. destruct (gi_dom tr s (DUnregTc d c) w' (Ok None) G Logic.I DS (fun f => f)) as [K1 K2 K3 K4 K5 K6].
    cbn in *. rewrite ST in *. destruct K2 as [_ K2]. split; [split; cbn; auto|split; [auto|split; [|split; [apply (go_world _ _ GP); now apply busy_eq|]]]].
    + intros d2 m2 I. destruct (K4 _ _ I) as [J|J]; [discriminate|auto].
    + intros m2 I. destruct (G5 m2 I) as [A2 B2]. split; [auto|]. intros J. apply B2. now right.
    + intros d2 I J. apply (G6 d2 I). now right.
    + intros r t T. cbn in T. rewrite WT in T. exact (NO r t T).
    + split; [|split; [|split]]; [intros d2; split; [auto|]; intros [K|K]; [auto|discriminate]|intros m2; split; [auto|]; intros [K|K]; [auto|discriminate]|discriminate|].
      exact (unreg_tcs _ _ _ _ (xrun_reach _ _ G1) DS).
  - destruct (go_in _ GG [] l ro ST) as (t & T & SD & _). change (on_domain (g_w s) (DDelObj ro)) with (on_domain (g_w s) (DNewObj ro)). rewrite (dom_of _ _ _ RE0 T).
    change (usable owner (pop s l) (t_dom t)) with (usable owner s (t_dom t)). rewrite (usable_now tr s _ G); [|rewrite ST; now right].
    pose proof (NO _ _ T) as C. cbn [global_objects] in C. destruct (tref_eqb_spec ro ro) as [_|]; [|congruence]. cbn in C. set (n := global_objects ro l) in *.
    assert (DS : dstep E (g_w s) (DDelObj ro) = (with_type (g_w s) ro (set_nobj t n), Ok None)). { cbn. unfold decr_nobj. rewrite T, C. reflexivity. }
    rewrite DS. eexists. exists (tr ++ [XDom (DDelObj ro)]). split; [reflexivity|]. destruct (gi_dom tr s (DDelObj ro) _ (Ok None) G Logic.I DS (fun f => f)) as [K1 K2 K3 K4 K5 K6].
    cbn [with_world pop g_w g_stack g_dead g_gone] in *. rewrite ST in *. destruct K2 as [_ K2]. split; [split; cbn [with_world pop g_w g_stack g_dead g_gone]; auto|split; [auto|split; [|split; [apply (go_nobj _ _ _ _ GP T); apply le_n|]]]].
    + intros d2 m2 I. destruct (K4 _ _ I) as [J|J]; [discriminate|auto].
    + intros m2 I. destruct (G5 m2 I) as [A2 B2]. split; [auto|]. intros J. apply B2. now right.
    + intros d2 I J. apply (G6 d2 I). now right.
    + intros r t' T'. cbn [with_world pop g_w g_stack with_type w_type] in *. unfold tupd in T'. destruct (tref_eqb_spec r ro) as [->|NE]; [injection T' as <-; reflexivity|].
      rewrite (NO _ _ T'). cbn [global_objects]. destruct (tref_eqb_spec ro r); [congruence|reflexivity].
    + split; [|split; [|split]]; [intros d2; split; [auto|]; intros [K|K]; [auto|discriminate]|intros m2; split; [auto|]; intros [K|K]; [auto|discriminate]|discriminate|].
      intros d2 c2 I. split; [exact I|discriminate].
Qed.
Lemma class_not tr s d l c : GI tr s -> g_stack s = SDomain d :: l -> ~ In (SClass d c) l.
Proof.
  intros [_ G2 G3 _ _ _] ST I. rewrite ST in *. destruct G2 as [_ G2]. destruct (good_in _ _ _ G2 I) as (l' & N & L). cbn in N, G3. inversion_clear G3 as [|? ? G31 _]. apply G31. apply filter_In. auto.
Qed.
Lemma data_free tr s m l : GI tr s -> g_stack s = SData m :: l -> w_mdom (g_w s) m = None /\ forall d r c, owner r = Some m -> ~ In (r, c) (d_rules (w_dom (g_w s) d)).
Proof.
  intros [G1 G2 G3 G4 _ _] ST. rewrite ST in *. destruct G2 as [ND G2]. cbn in ND, G3. inversion_clear G3 as [|? ? G31 _].
  assert (OP : forall d, ~ In (d, md_of data m) (open_defs tr)).
  { intros d I. destruct (G4 _ _ I) as [J|J]; [discriminate|]. destruct (good_in _ _ _ G2 J) as (l' & (d2 & _ & _ & B) & L). apply G31. apply filter_In. auto. }
  split.
  - destruct (w_mdom (g_w s) m) as [d|] eqn:M; auto. apply (open_iff _ _ _ _ G1 ND) in M. now apply OP in M.
  - intros d r c O M. apply (proj1 (c66 E RR data _ _ G1 d)) in M as [M1 M2]. destruct OW as [OW1 OW2].
    assert (0 < asked (open_defs tr) d r) as P.
    { unfold canon_count in M1. destruct (s_canonicalize (e_settings E d)); cbn [andb] in M1; [|lia]. destruct (Nat.eqb_spec r (e_canon E d)) as [->|]; [|lia]. rewrite OW2 in O. discriminate. }
    apply asked_pos in P as (md & P1 & P2). destruct (open_md _ _ _ _ G1 P1) as (Q1 & Q2 & Q3). destruct (data (md_info md)) as [rs|] eqn:DD; [|congruence].
    assert (In r rs) as IR. { rewrite Q1 in P2. unfold md_of in P2. cbn in P2. now rewrite DD in P2. } pose proof (OW1 _ _ _ _ DD IR O) as EQ.
    apply (OP d). rewrite EQ, <- Q1. exact P1.
Qed.
Lemma end_all l : forall tr s (P : dptr -> cptr -> Prop), GI tr s -> GO s -> g_stack s = l -> only_globals s -> (forall d c, P d c -> ~ In (Some c) (d_tcs (w_dom (g_w s) d))) ->
  exists log s', at_exit E data owner l s = (log, (s', EReturns)) /\ map fst log = l /\ g_stack s' = [] /\ (exists tr', GI tr' s') /\
    (forall d, g_dead s' d = true <-> g_dead s d = true \/ In (SDomain d) l) /\ (forall m, g_gone s' m = true <-> g_gone s m = true \/ In (SData m) l) /\
    (forall d s1, In (SDomain d, s1) log -> left_clean E data (g_w s1) d /\ forall c, P d c \/ In (SClass d c) l -> ~ In (Some c) (d_tcs (w_dom (g_w s1) d))) /\
    (forall m s1, In (SData m, s1) log -> w_mdom (g_w s1) m = None /\ forall d r c, owner r = Some m -> ~ In (r, c) (d_rules (w_dom (g_w s1) d))).
Proof.
  induction l as [|x l IH]; intros tr s P G GG ST NO PP; cbn [at_exit].
  - exists [], s. do 3 (split; auto). split; [eauto|]. split; [intros d; cbn; tauto|]. split; [intros m; cbn; tauto|]. split; [intros d s1 []|intros m s1 []].
  - destruct (end_step tr s x l G GG ST NO) as (s1 & tr1 & D & G1 & ST1 & NO1 & GG1 & DE & GO & CL & TC). rewrite D.
    destruct (IH tr1 s1 (fun d c => P d c \/ x = SClass d c) G1 GG1 ST1 NO1) as (log & s' & A & B & C & F & H1 & H2 & H3 & H4).
    { intros d c [Q|Q] I; apply TC in I as [I1 I2]; [exact (PP _ _ Q I1)|congruence]. }
    rewrite A. eexists. exists s'. split; [reflexivity|]. split; [cbn; now rewrite B|]. split; auto. split; auto. split; [|split; [|split]].
    + intros d. rewrite H1, DE. cbn. tauto.
    + intros m. rewrite H2, GO. cbn. tauto.
    + intros d s2 [I|I].
      * injection I as -> <-. split; auto. intros c [Q|[Q|Q]]; [auto|discriminate|]. now apply (class_not _ _ _ _ _ G ST) in Q.
      * destruct (H3 _ _ I) as [Q1 Q2]. split; auto. intros c Q. apply Q2. cbn in Q. tauto.
    + intros m s2 [I|I]; [injection I as -> <-; exact (data_free _ _ _ _ G ST)|eauto].
Qed.
Lemma c90_exit tr s : grun E data owner (orderly data) tr s -> only_globals s ->
  exists log s', g_exit E data owner s = (log, (s', EReturns)) /\ map fst log = g_stack s /\
    (forall d, In (SDomain d) (g_stack s) <-> g_dead s' d = true) /\
    (forall d s1, In (SDomain d, s1) log -> left_clean E data (g_w s1) d /\ forall c, In (SClass d c) (g_stack s) -> ~ In (Some c) (d_tcs (w_dom (g_w s1) d))) /\
    (forall m s1, In (SData m, s1) log -> w_mdom (g_w s1) m = None /\ forall d r c, owner r = Some m -> ~ In (r, c) (d_rules (w_dom (g_w s1) d))) /\
    (forall m, data m <> None -> w_mdom (g_w s') m = None).
Proof.
  intros H NO. destruct (started tr s H) as (F & GG & x & G & _). destruct (end_all _ x s (fun _ _ => False) G GG eq_refl NO) as (log & s' & A & B & C & (tr' & G') & H1 & H2 & H3 & H4); [tauto|].
  exists log, s'. split; auto. split; auto. split; [|split; [|split; auto]].
  - intros d. rewrite H1, (proj1 F). split; [auto|]. intros [Q|Q]; [discriminate|auto].
  - intros d s1 I. destruct (H3 d s1 I) as [Q1 Q2]. split; auto.
  - intros m N. destruct (w_mdom (g_w s') m) as [d|] eqn:M; auto. apply (open_iff _ _ _ _ (gi_x _ _ G') N) in M. apply (gi_open _ _ G') in M. rewrite C in M. destruct M.
Qed.
End G.
