(** Equality and order of objects *)
From Coq Require Import List Arith ZArith NArith Lia Bool.
From Verif Require Import Base Sv SvProofs BaseLemmas Info TypeBuild TypeQuery Domain ElemProofs TypesProofs SpecReg SpecDom HistProofs DomTheorems SpecOrd CmpProofs SpecLayout TypeTheorems Heap HeapProofs Mutation Object SpecObj SpecMut SpecAct
  PartProofs RollProofs AllocProofs UpdProofs FinProofs PerfProofs WorldProofs ObjProofs OpProofs PlanProofs ActProofs ActProofs2 MatchProofs ActProofs3 MutProofs MutProofs2 ObjTheorems.
Import ListNotations.

(** ** Lexicographic comparison *)
Fixpoint lexf {A} (f : A -> Z) (l : list A) : Z := match l with [] => 0%Z | x :: r => if (f x =? 0)%Z then lexf f r else f x end.
Lemma lexf_opp {A} (f g : A -> Z) l : (forall x, In x l -> Z.sgn (g x) = - Z.sgn (f x))%Z -> (Z.sgn (lexf g l) = - Z.sgn (lexf f l))%Z.
Proof.
  induction l as [|x l IH]; intros H; cbn; auto. assert (Hx := H x (or_introl eq_refl)). assert (Hl := IH (fun y Hy => H y (or_intror Hy))).
  destruct (Z.eqb_spec (f x) 0), (Z.eqb_spec (g x) 0); auto; exfalso; lia.
Qed.
Definition steps3 (a b c : Z) : Prop :=
  ((a <= 0 -> b <= 0 -> c <= 0) /\ (a = 0 -> b = 0 -> c = 0) /\ (a < 0 -> b <= 0 -> c < 0) /\ (a <= 0 -> b < 0 -> c < 0))%Z.
Definition steps2 (a b c : Z) : Prop := steps3 a b c /\ (a = 0 -> Z.sgn c = Z.sgn b)%Z /\ (b = 0 -> Z.sgn c = Z.sgn a)%Z.
Lemma lexf_steps {A} (f g h : A -> Z) l : (forall x, In x l -> steps3 (f x) (g x) (h x)) -> (forall x, In x l -> (f x = 0 -> Z.sgn (h x) = Z.sgn (g x))%Z /\ (g x = 0 -> Z.sgn (h x) = Z.sgn (f x))%Z) -> steps3 (lexf f l) (lexf g l) (lexf h l).
Proof.
  unfold steps3. induction l as [|x l IH]; intros H H2; cbn; [lia|]. assert (Hx := H x (or_introl eq_refl)). assert (Hx2 := H2 x (or_introl eq_refl)).
  assert (Hl := IH (fun y Hy => H y (or_intror Hy)) (fun y Hy => H2 y (or_intror Hy))). destruct (Z.eqb_spec (f x) 0) as [Hf|Hf], (Z.eqb_spec (g x) 0) as [Hg|Hg], (Z.eqb_spec (h x) 0) as [Hh|Hh]; lia.
Qed.
Lemma lexf_zero {A} (f : A -> Z) l : lexf f l = 0%Z <-> forall x, In x l -> f x = 0%Z.
Proof.
  induction l as [|x l IH]; cbn; [split; [intros _ x []|auto]|]. destruct (Z.eqb_spec (f x) 0) as [Hf|Hf].
  - rewrite IH. split; [intros H y [<-|Hy]; auto|intros H y Hy; apply H; now right].
  - split; [intros; contradiction|]. intros H. apply H. now left.
Qed.

Section OT6.
Variable E : env.
Variable U : user.
Hypothesis AM : aligned_mixins E.
Notation Inv := (Inv E).

Lemma order_steps m v w z : user_orders E U -> m_compare (e_mixin E m) = true -> steps2 (u_compare U m v w) (u_compare U m w z) (u_compare U m v z).
Proof.
  intros H Hc. pose proof (H m Hc v w z) as [A1 A2]. pose proof (H m Hc w z v) as [B1 B2]. pose proof (H m Hc z v w) as [C1 C2]. pose proof (H m Hc z w v) as [D1 D2]. pose proof (H m Hc w v z) as [F1 F2]. pose proof (H m Hc v z w) as [G1 G2].
  unfold steps2, steps3. lia.
Qed.

(** Places and values of the mixins of an object *)
Record seen (s : st) (o : nat) (x : obj) (r : tref) (t : type_rec) (P : nat -> addr) (V : nat -> Z) : Prop := {
  se_obj : s_obj s o = Some x; se_type : o_type x = Some r; se_rec : w_type (s_w s) r = Some t;
  se_at : forall i m, nth_error (t_mixins t) i = Some m -> data_at x i s = (s, Ok (P i)) /\ binst (s_blk s) (P i) = Some {| i_mixin := m; i_val := V i |} /\ holds s o i m (P i) (V i)
}.
Lemma see s o : Inv s -> typed s -> with_type_set s o -> exists x r t P V, seen s o x r t P V.
Proof.
  intros I Ty Hs. destruct (typed_cases E s o I Ty Hs) as (x & r & t & Hx & Hr & Ht & [[Hd Hm]|(b & dd & W)]).
  - exists x, r, t, (fun _ => (0, 0%N)), (fun _ => 0%Z). split; auto. intros i m Hi. rewrite Hm in Hi. destruct i; discriminate.
  - exists x, r, t, (fun i => md_mixin (dd i)), (fun i => match binst (s_blk s) (md_mixin (dd i)) with Some z => i_val z | None => 0%Z end). split; auto. intros i m Hi.
    destruct (whole_inst E s o x b r t dd i m I W Hi) as (v & Hv). rewrite Hv. cbn [i_val]. split; [|split; auto; eapply whole_holds; eauto].
    pose proof W as (_ & Hb & _). eapply data_at_row; eauto. eapply whole_dat; eauto. eapply nth_error_lt; eauto.
Qed.
Lemma seen_holds s o x r t P V i m p v : seen s o x r t P V -> holds s o i m p v -> nth_error (t_mixins t) i = Some m /\ p = P i /\ v = V i.
Proof.
  intros S H. pose proof H as ((r' & t' & T & Hm) & _). assert (T0 : type_of s o r t) by (exists x; split; [apply (se_obj _ _ _ _ _ _ _ S)|]; split; [apply (se_type _ _ _ _ _ _ _ S)|apply (se_rec _ _ _ _ _ _ _ S)]).
  destruct (type_of_fun s o r t r' t' T0 T) as [-> ->]. split; auto. destruct (se_at _ _ _ _ _ _ _ S i m Hm) as (_ & _ & H2). destruct (holds_fun s o i m (P i) (V i) p v H2 H); auto.
Qed.
Lemma live_step s m p v : binst (s_blk s) p = Some {| i_mixin := m; i_val := v |} -> live m p s = (s, Ok {| i_mixin := m; i_val := v |}).
Proof. unfold binst, live, get_blk, bnd. destruct (s_blk s (fst p)) as [k|]; [|discriminate]. intros H. rewrite H. cbn. now rewrite Nat.eqb_refl. Qed.

Definition veq (m : mptr) (v w : Z) : bool := if m_equals (e_mixin E m) then u_equals U m v w else m_compare (e_mixin E m) && (u_compare U m v w =? 0)%Z.
Lemma veq_iff m v w : veq m v w = true <-> val_eq E U m v w.
Proof. unfold veq, val_eq. destruct (m_equals (e_mixin E m)); [tauto|]. rewrite andb_true_iff, Z.eqb_eq. tauto. Qed.
Section Loop6.
Variables (s : st) (x y : obj) (P Q : nat -> addr) (V W : nat -> Z).
Definition ready (ms : list (nat * mptr)) : Prop := forall i m, In (i, m) ms -> data_at x i s = (s, Ok (P i)) /\ binst (s_blk s) (P i) = Some {| i_mixin := m; i_val := V i |} /\
  data_at y i s = (s, Ok (Q i)) /\ binst (s_blk s) (Q i) = Some {| i_mixin := m; i_val := W i |}.
Lemma equals_loop_run ms : ready ms -> equals_loop E U x y ms s = (s, Ok (forallb (fun im => veq (snd im) (V (fst im)) (W (fst im))) ms)).
Proof.
  induction ms as [|[i m] ms IH]; intros H; [reflexivity|]. destruct (H i m (or_introl eq_refl)) as (A1 & A2 & A3 & A4). cbn [equals_loop forallb]. rewrite (bnd_ok _ _ _ _ _ A1), (bnd_ok _ _ _ _ _ A3). cbn [fst snd]. unfold veq at 1.
  assert (IH' := IH (fun i m Hi => H i m (or_intror Hi))). destruct (m_equals (e_mixin E m)).
  - rewrite (bnd_ok _ _ _ _ _ (live_step s m _ _ A2)), (bnd_ok _ _ _ _ _ (live_step s m _ _ A4)). cbn [i_val]. destruct (u_equals U m (V i) (W i)); auto.
  - destruct (m_compare (e_mixin E m)); [|reflexivity]. rewrite (bnd_ok _ _ _ _ _ (live_step s m _ _ A2)), (bnd_ok _ _ _ _ _ (live_step s m _ _ A4)). cbn [i_val andb]. destruct (u_compare U m (V i) (W i) =? 0)%Z; auto.
Qed.
Definition ucmp (im : nat * mptr) : Z := u_compare U (snd im) (V (fst im)) (W (fst im)).
Lemma compare_loop_run ms : ready ms -> (forall i m, In (i, m) ms -> m_compare (e_mixin E m) = true) -> compare_loop E U x y ms s = (s, Ok (lexf ucmp ms)).
Proof.
  induction ms as [|[i m] ms IH]; intros H Hc; [reflexivity|]. destruct (H i m (or_introl eq_refl)) as (A1 & A2 & A3 & A4). cbn [compare_loop lexf]. rewrite (Hc i m (or_introl eq_refl)). rewrite (bnd_ok _ _ _ _ _ A1), (bnd_ok _ _ _ _ _ A3).
  rewrite (bnd_ok _ _ _ _ _ (live_step s m _ _ A2)), (bnd_ok _ _ _ _ _ (live_step s m _ _ A4)). cbn [i_val]. change (u_compare U m (V i) (W i)) with (ucmp (i, m)). cbv zeta. destruct (ucmp (i, m) =? 0)%Z; auto. apply IH; [intros j k Hk; apply H; now right|intros j k Hk; eapply Hc; right; exact Hk].
Qed.
End Loop6.
Lemma seen_ready s o x r t P V o' x' P' V' : seen s o x r t P V -> seen s o' x' r t P' V' -> ready s x x' P P' V V' (enumerate 0 (t_mixins t)).
Proof. intros A B i m Hi. apply enum_nth in Hi. destruct (se_at _ _ _ _ _ _ _ A i m Hi) as (A1 & A2 & _). destruct (se_at _ _ _ _ _ _ _ B i m Hi) as (B1 & B2 & _). auto. Qed.
Lemma seen_type s o x r t P V : seen s o x r t P V -> otype s o = Some r.
Proof. intros [A B _ _]. unfold otype. now rewrite A. Qed.
Lemma seen_rec s o x r t P V o' x' t' P' V' : seen s o x r t P V -> seen s o' x' r t' P' V' -> t' = t.
Proof. intros [_ _ A _] [_ _ B _]. congruence. Qed.

(** equals answers, and says whether the objects have the same type and values. *)
Lemma equals_spec s o o' : Inv s -> typed s -> with_type_set s o -> with_type_set s o' ->
  exists b, equals E U s o o' = Ok b /\ (b = true <-> o = o' \/ otype s o = otype s o' /\ same_values E U s o o').
Proof.
  intros I Ty H H'. destruct (see s o I Ty H) as (x & r & t & P & V & S). destruct (see s o' I Ty H') as (x' & r' & t' & P' & V' & S').
  assert (Hev : equals E U s o o' = if o =? o' then Ok true else if negb (tref_eqb r r') then Ok false else snd (equals_loop E U x x' (enumerate 0 (t_mixins t)) s)).
  { unfold equals, bnd, get_obj. rewrite (se_obj _ _ _ _ _ _ _ S), (se_obj _ _ _ _ _ _ _ S'). destruct (o =? o'); [reflexivity|]. unfold same_otype. rewrite (se_type _ _ _ _ _ _ _ S), (se_type _ _ _ _ _ _ _ S'). destruct (tref_eqb r r'); cbn [negb]; [|reflexivity].
    unfold the_type. rewrite (se_type _ _ _ _ _ _ _ S). unfold bnd, get_ty. rewrite (se_rec _ _ _ _ _ _ _ S). reflexivity. }
  rewrite Hev, (seen_type _ _ _ _ _ _ _ S), (seen_type _ _ _ _ _ _ _ S'). destruct (Nat.eqb_spec o o') as [->|Hne]; [exists true; tauto|].
  destruct (tref_eqb_spec r r') as [<-|Hr]; cbn [negb]; [|exists false; split; auto; split; [discriminate|intros [?|[[=] _]]; congruence]].
  pose proof (seen_rec _ _ _ _ _ _ _ _ _ _ _ _ S S'); subst t'. rewrite (equals_loop_run s x x' P P' V V' _ (seen_ready _ _ _ _ _ _ _ _ _ _ _ S S')). eexists. split; [reflexivity|]. rewrite forallb_forall. split.
  - intros Hall. right. split; auto. intros i m p v q w A B. destruct (seen_holds _ _ _ _ _ _ _ _ _ _ _ S A) as (A1 & -> & ->). destruct (seen_holds _ _ _ _ _ _ _ _ _ _ _ S' B) as (B1 & -> & ->). apply veq_iff. apply (Hall (i, m)). now apply enum_nth.
  - intros [?|[_ Hv]]; [contradiction|]. intros [i m] Hi. apply enum_nth in Hi. apply veq_iff. cbn [fst snd]. destruct (se_at _ _ _ _ _ _ _ S i m Hi) as (_ & _ & A). destruct (se_at _ _ _ _ _ _ _ S' i m Hi) as (_ & _ & B). eapply Hv; eauto.
Qed.

Lemma same_types s o o' x r t P V : seen s o x r t P V -> otype s o = otype s o' -> with_type_set s o' -> Inv s -> typed s -> exists x' P' V', seen s o' x' r t P' V'.
Proof.
  intros S Ho Hs I Ty. destruct (see s o' I Ty Hs) as (x' & r' & t' & P' & V' & S'). rewrite (seen_type _ _ _ _ _ _ _ S), (seen_type _ _ _ _ _ _ _ S') in Ho. injection Ho as <-. pose proof (seen_rec _ _ _ _ _ _ _ _ _ _ _ _ S S'); subst t'. eauto.
Qed.
Lemma can_equal_mixin s o x r t P V i m : seen s o x r t P V -> can_equal E s o -> nth_error (t_mixins t) i = Some m -> m_equals (e_mixin E m) = true \/ m_compare (e_mixin E m) = true.
Proof. intros S C Hi. apply C. destruct (se_at _ _ _ _ _ _ _ S i m Hi) as (_ & _ & H). eapply holds_mixin; eauto. Qed.
(** Equality of objects is an equivalence. *)
Lemma equals_laws s a b c : Inv s -> typed s -> with_type_set s a -> with_type_set s b -> with_type_set s c -> can_equal E s a -> user_equalities E U ->
  equals E U s a a = Ok true /\
  (otype s a <> otype s b -> equals E U s a b = Ok false) /\
  (equals E U s a b = Ok true -> equals E U s b a = Ok true) /\
  (equals E U s a b = Ok true -> equals E U s b c = Ok true -> equals E U s a c = Ok true) /\
  (otype s a = otype s b -> (forall i m p v q w, holds s a i m p v -> holds s b i m q w -> v = w) -> equals E U s a b = Ok true).
Proof.
  intros I Ty Ha Hb Hc Can UE.
  assert (Sp : forall x y, with_type_set s x -> with_type_set s y -> (equals E U s x y = Ok true <-> x = y \/ otype s x = otype s y /\ same_values E U s x y)).
  { intros x y Hx Hy. destruct (equals_spec s x y I Ty Hx Hy) as (bb & E1 & E2). rewrite E1. split; [intros [=]; now apply E2|intros Hz; f_equal; now apply E2]. }
  destruct (see s a I Ty Ha) as (xa & r & t & P & V & S). split; [apply Sp; auto|]. split; [|split; [|split]].
  - intros Hd. destruct (equals_spec s a b I Ty Ha Hb) as (bb & E1 & E2). rewrite E1. destruct bb; auto. exfalso. destruct (proj1 E2 eq_refl) as [->|[? _]]; auto.
  - rewrite (Sp a b), (Sp b a) by auto. intros [->|[Ho Hv]]; [auto|right; split; auto]. intros i m p v q w A B. destruct (seen_holds _ _ _ _ _ _ _ _ _ _ _ S B) as (Hm & _ & _).
    exact (proj1 (proj2 (UE m (can_equal_mixin _ _ _ _ _ _ _ _ _ S Can Hm) w v 0%Z)) (Hv i m q w p v B A)).
  - rewrite (Sp a b), (Sp b c), (Sp a c) by auto. intros [->|[Ho Hv]]; [auto|]. intros [->|[Ho' Hv']]; [auto|]. right. split; [congruence|]. intros i m p v q w A B. destruct (seen_holds _ _ _ _ _ _ _ _ _ _ _ S A) as (Hm & _ & _).
    destruct (same_types s a b xa r t P V S Ho Hb I Ty) as (xb & P' & V' & S'). destruct (se_at _ _ _ _ _ _ _ S' i m Hm) as (_ & _ & Hz). exact (proj2 (proj2 (UE m (can_equal_mixin _ _ _ _ _ _ _ _ _ S Can Hm) v (V' i) w)) (Hv i m p v _ _ A Hz) (Hv' i m _ _ q w Hz B)).
  - intros Ho Hv. apply Sp; auto. right. split; auto. intros i m p v q w A B. rewrite (Hv i m p v q w A B). destruct (seen_holds _ _ _ _ _ _ _ _ _ _ _ S A) as (Hm & _ & _). exact (proj1 (UE m (can_equal_mixin _ _ _ _ _ _ _ _ _ S Can Hm) w w w)).
Qed.

(** ** Order *)
Lemma seen_has s o x r t P V : Inv s -> seen s o x r t P V -> exists d, has_type (s_w s) d r t.
Proof. intros I S. exists (t_dom t). split; [apply (se_rec _ _ _ _ _ _ _ S)|]. destruct (type_cases E (s_w s) r t (iv_reach _ _ I) (se_rec _ _ _ _ _ _ _ S)) as [(k & -> & _)|(_ & H)]; auto. Qed.
Definition gcmp (s : st) (ta tb : type_rec) (V W : nat -> Z) : Z :=
  match tycmp E (w_mid (s_w s)) ta tb with Eq => lexf (ucmp V W) (enumerate 0 (t_mixins ta)) | c => zcmp c end.
Lemma order_refl m v : user_orders E U -> m_compare (e_mixin E m) = true -> u_compare U m v v = 0%Z.
Proof. intros H Hc. destruct (H m Hc v v v) as [A _]. lia. Qed.
Lemma compare_run s o x r t P V o' x' r' t' P' V' : Inv s -> regular_mixins E -> user_orders E U -> seen s o x r t P V -> seen s o' x' r' t' P' V' -> can_compare E s o ->
  compare E U s o o' = Ok (gcmp s t t' V V') /\ (tycmp E (w_mid (s_w s)) t t' = Eq <-> r = r').
Proof.
  intros I RM UO S S' Can. destruct (seen_has _ _ _ _ _ _ _ I S) as (d & Hd). destruct (seen_has _ _ _ _ _ _ _ I S') as (d' & Hd').
  destruct (type_compare_spec E (s_w s) d r t d' r' t' RM (iv_reach _ _ I) Hd Hd') as [Hc Hz]. split; auto.
  assert (Cm : forall i m, In (i, m) (enumerate 0 (t_mixins t)) -> m_compare (e_mixin E m) = true).
  { intros i m Hi. apply enum_nth in Hi. apply Can. destruct (se_at _ _ _ _ _ _ _ S i m Hi) as (_ & _ & H). eapply holds_mixin; eauto. }
  assert (Hev : compare E U s o o' = if o =? o' then Ok 0%Z else if negb (zcmp (tycmp E (w_mid (s_w s)) t t') =? 0)%Z then Ok (zcmp (tycmp E (w_mid (s_w s)) t t')) else snd (compare_loop E U x x' (enumerate 0 (t_mixins t)) s)).
  { unfold compare. rewrite (bnd_ok _ _ _ _ _ (get_obj_step s o x (se_obj _ _ _ _ _ _ _ S))), (bnd_ok _ _ _ _ _ (get_obj_step s o' x' (se_obj _ _ _ _ _ _ _ S'))). destruct (o =? o'); [reflexivity|].
    rewrite (bnd_ok _ _ _ _ _ (the_type_step s x r t (se_type _ _ _ _ _ _ _ S) (se_rec _ _ _ _ _ _ _ S))), (bnd_ok _ _ _ _ _ (the_type_step s x' r' t' (se_type _ _ _ _ _ _ _ S') (se_rec _ _ _ _ _ _ _ S'))). cbn [fst snd].
    unfold bnd at 1. rewrite Hc. destruct (negb (zcmp (tycmp E (w_mid (s_w s)) t t') =? 0)%Z); reflexivity. }
  rewrite Hev. unfold gcmp. destruct (Nat.eqb_spec o o') as [<-|Hne].
  - assert (x' = x) by (pose proof (se_obj _ _ _ _ _ _ _ S); pose proof (se_obj _ _ _ _ _ _ _ S'); congruence). subst x'. assert (r' = r) by (pose proof (se_type _ _ _ _ _ _ _ S); pose proof (se_type _ _ _ _ _ _ _ S'); congruence). subst r'.
    rewrite (proj2 Hz eq_refl). f_equal. symmetry. apply lexf_zero. intros [i m] Hi. unfold ucmp. cbn [fst snd]. pose proof (Cm i m Hi) as Cmm. apply enum_nth in Hi. destruct (se_at _ _ _ _ _ _ _ S i m Hi) as (_ & _ & H). destruct (seen_holds _ _ _ _ _ _ _ _ _ _ _ S' H) as (_ & _ & ->).
    now apply order_refl.
  - destruct (tycmp E (w_mid (s_w s)) t t') eqn:Ht; cbn [zcmp Z.eqb negb]; auto. assert (r = r') by (now apply Hz). subst r'. pose proof (seen_rec _ _ _ _ _ _ _ _ _ _ _ _ S S'); subst t'.
    now rewrite (compare_loop_run s x x' P P' V V' _ (seen_ready _ _ _ _ _ _ _ _ _ _ _ S S') Cm).
Qed.
(** Comparison of objects is a total preorder that agrees with equality. *)
Lemma compare_laws s a b c : Inv s -> typed s -> regular_mixins E -> user_orders E U -> with_type_set s a -> with_type_set s b -> with_type_set s c -> can_compare E s a -> can_compare E s b -> can_compare E s c ->
  exists zab zba zbc zac, compare E U s a b = Ok zab /\ compare E U s b a = Ok zba /\ compare E U s b c = Ok zbc /\ compare E U s a c = Ok zac /\
    (Z.sgn zba = - Z.sgn zab)%Z /\ ((zab <= 0 -> zbc <= 0 -> zac <= 0) /\ (zab < 0 -> zbc <= 0 -> zac < 0) /\ (zab <= 0 -> zbc < 0 -> zac < 0))%Z /\
    (zab = 0%Z -> otype s a = otype s b) /\ (user_agrees E U -> (zab = 0%Z <-> equals E U s a b = Ok true)).
Proof.
  intros I Ty RM UO Ha Hb Hc Ca Cb Cc. destruct (see s a I Ty Ha) as (xa & ra & ta & Pa & Va & Sa). destruct (see s b I Ty Hb) as (xb & rb & tb & Pb & Vb & Sb). destruct (see s c I Ty Hc) as (xc & rc & tc & Pc & Vc & Sc).
  destruct (compare_run _ _ _ _ _ _ _ _ _ _ _ _ _ I RM UO Sa Sb Ca) as [Eab Tab]. destruct (compare_run _ _ _ _ _ _ _ _ _ _ _ _ _ I RM UO Sb Sa Cb) as [Eba Tba].
  destruct (compare_run _ _ _ _ _ _ _ _ _ _ _ _ _ I RM UO Sb Sc Cb) as [Ebc Tbc]. destruct (compare_run _ _ _ _ _ _ _ _ _ _ _ _ _ I RM UO Sa Sc Ca) as [Eac Tac].
  do 4 eexists. split; [exact Eab|]. split; [exact Eba|]. split; [exact Ebc|]. split; [exact Eac|]. set (T := tycmp E (w_mid (s_w s))) in *.
  assert (TC : tcmp T) by apply tcmp_tycmp.
  assert (Cma : forall i m, In (i, m) (enumerate 0 (t_mixins ta)) -> m_compare (e_mixin E m) = true).
  { intros i m Hi. apply enum_nth in Hi. apply Ca. destruct (se_at _ _ _ _ _ _ _ Sa i m Hi) as (_ & _ & H). eapply holds_mixin; eauto. }
  split; [|split; [|split]].
  - unfold gcmp. fold T. rewrite (tc_opp _ TC ta tb). destruct (T ta tb) eqn:Ht; cbn [CompOpp zcmp]; auto. pose proof (proj1 Tab eq_refl); subst rb; pose proof (seen_rec _ _ _ _ _ _ _ _ _ _ _ _ Sa Sb); subst tb.
    apply lexf_opp. intros [i m] Hi. unfold ucmp. cbn [fst snd]. apply (UO m (Cma i m Hi) _ _ 0%Z).
  - assert (H3 : steps3 (gcmp s ta tb Va Vb) (gcmp s tb tc Vb Vc) (gcmp s ta tc Va Vc)); [|destruct H3 as (A & _ & B & C); auto].
    unfold gcmp. fold T. destruct (T ta tb) eqn:H1.
    + pose proof (proj1 Tab eq_refl); subst rb; pose proof (seen_rec _ _ _ _ _ _ _ _ _ _ _ _ Sa Sb); subst tb. destruct (T ta tc) eqn:H2; cbn [zcmp]; [|unfold steps3; lia|unfold steps3; lia].
      apply lexf_steps; intros [i m] Hi; unfold ucmp; cbn [fst snd]; destruct (order_steps m (Va i) (Vb i) (Vc i) UO (Cma i m Hi)) as [G1 G2]; auto.
    + destruct (T tb tc) eqn:H2; cbn [zcmp].
      * rewrite <- (tc_eq_r _ tb tc ta TC H2), H1. cbn [zcmp]. unfold steps3. lia.
      * rewrite (tc_trans _ TC _ _ _ H1 H2). cbn [zcmp]. unfold steps3. lia.
      * unfold steps3. lia.
    + unfold steps3. cbn [zcmp]. lia.
  - unfold gcmp. fold T. rewrite (seen_type _ _ _ _ _ _ _ Sa), (seen_type _ _ _ _ _ _ _ Sb). destruct (T ta tb) eqn:H1; cbn [zcmp]; try discriminate. intros _. f_equal. now apply Tab.
  - intros UA. destruct (equals_spec s a b I Ty Ha Hb) as (bb & E1 & E2). rewrite E1. transitivity (a = b \/ otype s a = otype s b /\ same_values E U s a b); [|rewrite <- E2; split; congruence].
    unfold gcmp. fold T. rewrite (seen_type _ _ _ _ _ _ _ Sa), (seen_type _ _ _ _ _ _ _ Sb). destruct (T ta tb) eqn:H1; cbn [zcmp].
    + pose proof (proj1 Tab eq_refl); subst rb; pose proof (seen_rec _ _ _ _ _ _ _ _ _ _ _ _ Sa Sb); subst tb. rewrite lexf_zero.
      assert (Hveq : forall i m, In (i, m) (enumerate 0 (t_mixins ta)) -> (ucmp Va Vb (i, m) = 0%Z <-> val_eq E U m (Va i) (Vb i))).
      { intros i m Hi. unfold ucmp, val_eq. cbn [fst snd]. pose proof (Cma i m Hi) as Hcm. destruct (m_equals (e_mixin E m)) eqn:He; [symmetry; now apply UA|tauto]. }
      split.
      * intros Hz. right. split; auto. intros i m p v q w A B. destruct (seen_holds _ _ _ _ _ _ _ _ _ _ _ Sa A) as (A1 & -> & ->). destruct (seen_holds _ _ _ _ _ _ _ _ _ _ _ Sb B) as (B1 & -> & ->). apply enum_nth in A1. apply Hveq; auto.
      * intros Hd [i m] Hi. pose proof Hi as Hn. apply enum_nth in Hn. destruct (se_at _ _ _ _ _ _ _ Sa i m Hn) as (_ & _ & A). destruct (se_at _ _ _ _ _ _ _ Sb i m Hn) as (_ & _ & B). destruct Hd as [<-|[_ Hv]].
        -- destruct (holds_fun s a i m _ _ _ _ A B) as [_ Hvv]. unfold ucmp. cbn [fst snd]. rewrite Hvv. apply order_refl; eauto.
        -- apply Hveq; auto. eapply Hv; eauto.
    + split; [discriminate|]. intros Hd. exfalso. assert (ra = rb). { destruct Hd as [<-|[[=] _]]; auto. pose proof (se_obj _ _ _ _ _ _ _ Sa). pose proof (se_obj _ _ _ _ _ _ _ Sb). pose proof (se_type _ _ _ _ _ _ _ Sa). pose proof (se_type _ _ _ _ _ _ _ Sb). congruence. } now apply Tab in H.
    + split; [discriminate|]. intros Hd. exfalso. assert (ra = rb). { destruct Hd as [<-|[[=] _]]; auto. pose proof (se_obj _ _ _ _ _ _ _ Sa). pose proof (se_obj _ _ _ _ _ _ _ Sb). pose proof (se_type _ _ _ _ _ _ _ Sa). pose proof (se_type _ _ _ _ _ _ _ Sb). congruence. } now apply Tab in H.
Qed.
End OT6.
