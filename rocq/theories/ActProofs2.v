(** What construction, copying and moving of objects do *)
From Coq Require Import List Arith ZArith NArith Lia Bool.
From Verif Require Import Base Sv BaseLemmas Info TypeBuild TypeQuery Domain TypesProofs SpecDom HistProofs DomTheorems SpecLayout LayoutProofs Heap HeapProofs Mutation Object
  PartProofs RollProofs AllocProofs UpdProofs FinProofs PerfProofs WorldProofs ObjProofs OpProofs PlanProofs SpecObj ActProofs.
Import ListNotations.

Section Act2.
Variable E : env.
Variable U : user.
Hypothesis AM : aligned_mixins E.
Notation Inv := (Inv E).

(** The object that a constructor starts with *)
Definition blank (a : nat) : obj := {| o_type := None; o_data := None; o_alloc := a; o_sealed := false |}.
Definition blank_st (s : st) (o a : nat) : st := set_obj s o (Some (blank a)).
Lemma blank_inv s o a : Inv s -> typed s -> s_obj s o = None -> Inv (blank_st s o a) /\ typed (blank_st s o a) /\ s_obj (blank_st s o a) o = Some (blank a).
Proof.
  intros I Ty Ho. split; [apply inv_put; auto; now rewrite Ho|]. split; [apply typed_put; cbn; auto|]. unfold blank_st. cbn [set_obj s_obj]. apply upd_same.
Qed.
Lemma with_new_step s o a body : s_obj s o = None -> with_new E o a body s = match body (blank_st s o a) with (s', Throw e) => bnd (obj_dtor E o) (fun _ => raise e) s' | x => x end.
Proof. intros Ho. unfold with_new, fresh_obj. unfold bnd at 1. rewrite Ho. reflexivity. Qed.
Lemma dtor_none s o x : s_obj s o = Some x -> o_data x = None -> obj_dtor E o s = (set_obj s o None, Ok tt).
Proof. intros Ho Hd. unfold obj_dtor, clear_mixin_data. unfold bnd at 1. rewrite (bnd_ok _ _ _ _ _ (get_obj_step s o x Ho)), Hd. reflexivity. Qed.
Lemma kill_inv s o x : Inv s -> typed s -> s_obj s o = Some x -> o_data x = None -> Inv (set_obj s o None) /\ typed (set_obj s o None).
Proof. intros I Ty Ho Hd. split; [apply inv_put; auto; rewrite Ho; cbn; now rewrite Hd|]. apply typed_put; auto. Qed.

(** What an outcome leaves at the object *)
Lemma outcome_obj s o x r t np cp ord unw s' res : s_obj s o = Some x -> outcome E U s o x r t np cp ord unw s' res ->
  match res with
  | Ok _ => exists x', s_obj s' o = Some x' /\ (unw = false /\ o_type x' = Some r /\ o_sealed x = false /\ o_sealed x' = false /\ o_alloc x' = o_alloc x \/ unw = true /\ x' = x)
  | Throw _ => s_obj s' o = Some x
  | Ub _ => False
  end.
Proof.
  intros Ho Hc. destruct Hc as [old r0 t0 ddo SU H0 Hu Hse Hr Hc|old r0 t0 ddo SU H0 Hu Hse Hr Hc|old r0 t0 ddo SU H0 Hu Hse Hc|old r0 t0 ddo e SU H0 Hc Hre].
  - destruct Hc as (oldv & dd & K & _). exists x. rewrite (kp_obj _ _ _ _ _ _ _ _ _ K). split; auto. left. auto.
  - destruct Hc as (tb & dd & oldv & newv & s1 & D & _). rewrite (dm_obj _ _ _ _ _ _ _ _ _ _ _ _ _ _ _ _ D). unfold upd. rewrite Nat.eqb_refl. eexists. split; [reflexivity|]. left. auto.
  - destruct Hc as (oldv & k & tb & dd & u & lx & K & _). exists x. rewrite (kp_obj _ _ _ _ _ _ _ _ _ K). auto.
  - destruct Hc as (oldv & k & tb & dd & u & lx & K & _). now rewrite (kp_obj _ _ _ _ _ _ _ _ _ K).
Qed.
Lemma reset_obj s o x r unw s' res : s_obj s o = Some x -> reset_out E U s o x r unw s' res ->
  match res with
  | Ok _ => exists x', s_obj s' o = Some x'
  | Throw _ => s_obj s' o = Some x
  | Ub _ => False
  end.
Proof.
  intros Ho Hc. destruct Hc as [Hse ->|Hse Hr ->|t Hse Hr Ht Hn Hrr (s1 & C & ->)|t res Hse Hr Ht Hn Hf Hc]; eauto.
  - cbn [set_obj s_obj]. rewrite upd_same. eauto.
  - apply (outcome_obj s o x r t _ _ _ _ s' res Ho) in Hc. destruct res; auto. destruct Hc as (x' & Hx & _). eauto.
Qed.

Inductive new_out (s : st) (o : nat) (r : tref) (a : nat) (sl unw : bool) (s' : st) : res unit -> Prop :=
| nw_ok s2 x2 : Inv s2 -> typed s2 -> reset_out E U (blank_st s o a) o (blank a) r unw s2 (Ok tt) -> s_obj s2 o = Some x2 -> s' = set_obj s2 o (Some (with_sealed x2 sl)) -> new_out s o r a sl unw s' (Ok tt)
| nw_throw s2 e : Inv s2 -> typed s2 -> reset_out E U (blank_st s o a) o (blank a) r unw s2 (Throw e) -> s' = set_obj s2 o None -> new_out s o r a sl unw s' (Throw e).
Lemma act_new s o r a sl unw : Inv s -> typed s -> s_obj s o = None -> w_type (s_w s) r <> None ->
  exists s' res, new_of_type E U unw o r a sl s = (s', res) /\ new_out s o r a sl unw s' res /\ Inv s' /\ typed s'.
Proof.
  intros I Ty Ho Ha. destruct (blank_inv s o a I Ty Ho) as (I1 & Ty1 & Ho1). destruct (w_type (s_w s) r) as [t|] eqn:Ht; [|congruence].
  destruct (act_reset E U AM (blank_st s o a) o (blank a) r unw I1 Ty1 Ho1) as (s2 & res & H1 & H2 & I2 & Ty2); [discriminate|exists (blank a), t; split; auto; split; auto; now intros []|].
  unfold new_of_type. rewrite with_new_step by auto. pose proof (reset_obj _ _ _ _ _ _ _ Ho1 H2) as Hx. destruct res as [[]|e|u]; [| |destruct Hx].
  - destruct Hx as (x2 & Hx). rewrite (bnd_ok _ _ _ _ _ H1), (mod_obj_step s2 o _ x2 Hx). eexists. eexists. split; [reflexivity|]. split; [eapply nw_ok; eauto|].
    split; [apply inv_put; auto; now rewrite Hx|]. apply typed_put; auto. cbn. now apply (Ty2 o).
  - rewrite (bnd_throw _ _ _ _ _ H1), (bnd_ok _ _ _ _ _ (dtor_none s2 o _ Hx eq_refl)). eexists. eexists. split; [reflexivity|]. split; [eapply nw_throw; eauto|].
    eapply kill_inv; eauto.
Qed.

(** ** Moving *)
Definition typed_but (s : st) (o : nat) : Prop := forall o' x, o' <> o -> s_obj s o' = Some x -> o_data x = None -> match o_type x with Some (TReg _) => False | _ => True end.
Lemma typed_usurped s o x src y d s' : typed_but s o -> s_obj s src = Some y -> o <> src -> usurped E s o x src y d s' -> typed s'.
Proof.
  intros Ty Hy Hne W o' z Hz Hd. rewrite (us_obj _ _ _ _ _ _ _ _ W) in Hz. destruct (o' =? src); [injection Hz as <-; exact Logic.I|].
  destruct (Nat.eqb_spec o' o); [injection Hz as <-; cbn in *; apply (Ty src); auto|now apply (Ty o')].
Qed.
Lemma usurp_act s o x src y r t : Inv s -> typed_but s o -> o <> src -> s_obj s o = Some x -> o_data x = None -> s_obj s src = Some y -> o_alloc x = o_alloc y -> o_type y = Some r -> w_type (s_w s) r = Some t ->
  exists s', usurp o src s = (s', Ok tt) /\ usurped E s o x src y (t_dom t) s' /\ Inv s' /\ typed s'.
Proof.
  intros I Ty Hne Hx Hdx Hy Ha Hr Ht. destruct (usurp_step E AM s o x src y r t I Hne Hx Hy Hr Ht) as (s' & H1 & W).
  - intros Hd. pose proof (Ty src y (not_eq_sym Hne) Hy Hd) as Hq. rewrite Hr in Hq. destruct r as [d|m]; [|destruct Hq]. destruct (type_empty E (s_w s) d (iv_reach _ _ I)) as (k & Hk). assert (t = set_nobj (empty_type d) k) as -> by congruence. reflexivity.
  - exists s'. split; auto. split; auto. split; [eapply (inv_usurped E s o x src y); eauto|eapply typed_usurped; eauto].
Qed.

Lemma act_moved s o src y r t : Inv s -> typed s -> s_obj s o = None -> s_obj s src = Some y -> o_type y = Some r -> w_type (s_w s) r = Some t ->
  exists s', new_moved o src s = (s', Ok tt) /\ usurped E (blank_st s o (o_alloc y)) o (blank (o_alloc y)) src y (t_dom t) s' /\ Inv s' /\ typed s'.
Proof.
  intros I Ty Ho Hy Hr Ht. destruct (blank_inv s o (o_alloc y) I Ty Ho) as (I1 & Ty1 & Ho1). assert (Hne : o <> src) by congruence.
  destruct (usurp_act (blank_st s o (o_alloc y)) o (blank (o_alloc y)) src y r t I1 (fun o' x _ => Ty1 o' x) Hne Ho1 eq_refl) as (s' & H1 & W & I2 & Ty2); auto.
  { unfold blank_st. cbn [set_obj s_obj]. now rewrite upd_other by auto. }
  exists s'. split; auto. unfold new_moved. rewrite (bnd_ok _ _ _ _ _ (get_obj_step s src y Hy)). unfold fresh_obj. unfold bnd at 1. rewrite Ho. exact H1.
Qed.

Inductive move_out (s : st) (o : nat) (x : obj) (src : nat) (y : obj) (s' : st) : res unit -> Prop :=
| mv_self : o = src -> s' = s -> move_out s o x src y s' (Ok tt)
| mv_alloc : o <> src -> o_alloc x <> o_alloc y -> s' = s -> move_out s o x src y s' (Throw EMismatchedAllocators)
| mv_sealed : o <> src -> o_alloc x = o_alloc y -> o_sealed x = true -> s' = s -> move_out s o x src y s' (Throw ESealed)
| mv_ok s1 d : o <> src -> o_alloc x = o_alloc y -> o_sealed x = false -> object_domain s src d -> cleared E s o x s1 -> usurped E s1 o (with_odata x None) src y d s' -> move_out s o x src y s' (Ok tt).
Lemma act_move s o x src y : Inv s -> typed s -> s_obj s o = Some x -> o_type x <> None -> s_obj s src = Some y -> o_type y <> None ->
  exists s' res, move_assign E o src s = (s', res) /\ move_out s o x src y s' res /\ Inv s' /\ typed s'.
Proof.
  intros I Ty Hx Hxt Hy Hyt. unfold move_assign. rewrite (bnd_ok _ _ _ _ _ (get_obj_step s o x Hx)), (bnd_ok _ _ _ _ _ (get_obj_step s src y Hy)).
  destruct (the_type_ok E s o x I Ty Hx Hxt) as (rx & tx & Hrx & Htx & Hx1).
  destruct (Nat.eqb_spec o src) as [Heq|Hne]; [exists s, (Ok tt); split; [reflexivity|]; split; auto; now apply mv_self|].
  destruct (Nat.eqb_spec (o_alloc x) (o_alloc y)) as [Ha|Ha].
  2:{ rewrite (bnd_ok _ _ _ _ _ Hx1). eexists. eexists. split; [reflexivity|]. split; auto. now apply mv_alloc. }
  destruct (o_sealed x) eqn:Hse.
  { rewrite (bnd_ok _ _ _ _ _ Hx1). eexists. eexists. split; [reflexivity|]. split; auto. now apply mv_sealed. }
  destruct (clear_step E AM s o x I Hx) as (s1 & H1 & C). rewrite (bnd_ok _ _ _ _ _ H1). pose proof (inv_cleared E s o x s1 I Hx C) as I1.
  assert (Ty1 : typed_but s1 o).
  { intros o' z Hne' Hz. rewrite (cl_obj _ _ _ _ _ C) in Hz. destruct (Nat.eqb_spec o' o); [congruence|]. now apply (Ty o'). }
  destruct (the_type_ok E s src y I Ty Hy Hyt) as (r & t & Hr & Ht & _). destruct (cl_type2 E s o x s1 r t C Ht) as (n & Ht1).
  destruct (usurp_act s1 o (with_odata x None) src y r (set_nobj t n) I1 Ty1 Hne) as (s' & H2 & W & I2 & Ty2); auto.
  - rewrite (cl_obj _ _ _ _ _ C), Nat.eqb_refl. reflexivity.
  - rewrite (cl_obj _ _ _ _ _ C). destruct (Nat.eqb_spec src o); congruence.
  - exists s', (Ok tt). split; auto. split; auto. eapply mv_ok with (d := t_dom t); eauto. exists r, t. split; auto. exists y. auto.
Qed.

(** ** Copying *)
Definition whole (s : st) (o : nat) (x : obj) (b : nat) (r : tref) (t : type_rec) (dd : nat -> mdata) : Prop :=
  s_obj s o = Some x /\ o_data x = Some b /\ o_type x = Some r /\ w_type (s_w s) r = Some t /\ t_mixins t <> [] /\ part E (s_blk s) o (o_alloc x) t b dd (full t) (full t) (full t).
Lemma whole_of s o x b : Inv s -> s_obj s o = Some x -> o_data x = Some b -> exists r t dd, whole s o x b r t dd.
Proof. intros I Ho Hb. pose proof (iv_obj _ _ I o x Ho) as Hk. unfold obj_ok in Hk. rewrite Hb in Hk. destruct Hk as (r & t & dd & A). exists r, t, dd. split; auto. Qed.
Lemma full_lt t i m : nth_error (t_mixins t) i = Some m -> full t i = true.
Proof. intros H. apply Nat.ltb_lt. now apply nth_error_lt in H. Qed.
Lemma whole_inst s o x b r t dd i m : Inv s -> whole s o x b r t dd -> nth_error (t_mixins t) i = Some m -> exists v, binst (s_blk s) (md_mixin (dd i)) = Some {| i_mixin := m; i_val := v |}.
Proof.
  intros I (_ & _ & _ & _ & _ & P) Hm. destruct (pa_con _ _ _ _ _ _ _ _ _ _ P i (full_lt t i m Hm)) as (m' & off & v & Hs & _ & _ & Hv). exists v. destruct Hs as [Hs _]. assert (m' = m) as -> by congruence. exact Hv.
Qed.
Lemma whole_dat s o x b r t dd i : whole s o x b r t dd -> i < length (t_mixins t) -> bdat (s_blk s) b i = Some (dd i).
Proof. intros (_ & _ & _ & _ & _ & P) Hi. rewrite (pa_data _ _ _ _ _ _ _ _ _ _ P). apply Nat.ltb_lt in Hi. unfold full. now rewrite Hi. Qed.
Lemma whole_foot s o x b r t dd i : Inv s -> whole s o x b r t dd -> i < length (t_mixins t) -> foot s o (fst (md_mixin (dd i))).
Proof.
  intros I W Hi. pose proof W as (A1 & A2 & A3 & A4 & A5 & P). apply (foot_fp E s o x b r t dd _ A1 A2 A3 A4 P). assert (Hf : full t i = true) by (unfold full; now apply Nat.ltb_lt).
  destruct (part_con_mine E _ _ _ _ _ _ _ _ _ i P Hf) as (m & off & v & Hm & _). eapply part_mine_fp; eauto.
Qed.
Lemma whole_main s o x b r t dd : whole s o x b r t dd -> foot s o b.
Proof. intros (A1 & A2 & A3 & A4 & _). exists x, b, r, t. auto 6. Qed.

Inductive copy_out (s : st) (o src : nat) (y : obj) (a : nat) (unw : bool) (s' : st) : res unit -> Prop :=
| cy_empty : o_data y = None -> s' = set_obj (blank_st s o a) o (Some (with_otype (blank a) (o_type y))) -> copy_out s o src y a unw s' (Ok tt)
| cy_ok b r t dy : whole s src y b r t dy -> outcome E U (blank_st s o a) o (blank a) r t (fun t0 => cp_new E (blank_st s o a) t None t0 dy) no_com False unw s' (Ok tt) -> copy_out s o src y a unw s' (Ok tt)
| cy_throw b r t dy s2 e : Inv s2 -> typed s2 -> whole s src y b r t dy -> outcome E U (blank_st s o a) o (blank a) r t (fun t0 => cp_new E (blank_st s o a) t None t0 dy) no_com False unw s2 (Throw e) -> s' = set_obj s2 o None -> copy_out s o src y a unw s' (Throw e).
Lemma act_copy s o src y a unw : Inv s -> typed s -> s_obj s o = None -> s_obj s src = Some y ->
  exists s' res, copy E U unw o src a s = (s', res) /\ copy_out s o src y a unw s' res /\ Inv s' /\ typed s'.
Proof.
  intros I Ty Ho Hy. destruct (blank_inv s o a I Ty Ho) as (I1 & Ty1 & Ho1). unfold copy. rewrite (bnd_ok _ _ _ _ _ (get_obj_step s src y Hy)), with_new_step by auto.
  destruct (o_data y) as [b|] eqn:Hb.
  - destruct (whole_of s src y b I Hy Hb) as (r & t & dy & W). pose proof W as (_ & _ & A3 & A4 & A5 & P).
    destruct (perform_inv E U AM (blank_st s o a) o (blank a) r t (fun t0 => cp_new E (blank_st s o a) t None t0 dy) no_com False unw (construct_each (copy_new E U y) None) I1 Ty1 Ho1 A4) as (s2 & res & H1 & H2 & I2 & Ty2); auto.
    + intros b' q t0 Hb'. discriminate.
    + intros old r0 t0 ddo SU H0. assert (Hno : forall i, i < length (t_mixins t) -> ~ own_addr None t0 ddo (md_mixin (dy i))) by (intros i _ (b' & oi & Hb' & _); discriminate).
      assert (Hin : forall i m, nth_error (t_mixins t) i = Some m -> exists v, binst (s_blk s) (md_mixin (dy i)) = Some {| i_mixin := m; i_val := v |}) by (intros i m; exact (whole_inst s src y b r t dy i m I W)).
      split; [exact (plan_copy E (blank_st s o a) t None t0 ddo dy Hin Hno)|].
      apply (body_copy E U (blank_st s o a) o (blank a) old r t None r0 t0 ddo SU b y dy Hb); auto.
      * eapply (foot_lt E s src b); eauto. eapply whole_main; eauto.
      * intros i Hi. exact (whole_dat s src y b r t dy i W Hi).
    + rewrite (bnd_ok (the_type y) _ (blank_st s o a) (blank_st s o a) (r, t)) by (now apply the_type_step). cbn [fst]. rewrite H1.
      pose proof (outcome_obj _ _ _ _ _ _ _ _ _ _ _ Ho1 H2) as Hx. destruct res as [[]|e|u]; [| |destruct Hx].
      * eexists. eexists. split; [reflexivity|]. split; auto. eapply cy_ok; eauto.
      * rewrite (bnd_ok _ _ _ _ _ (dtor_none s2 o _ Hx eq_refl)). eexists. eexists. split; [reflexivity|]. split; [eapply cy_throw; eauto|]. eapply kill_inv; eauto.
  - rewrite (mod_obj_step _ o _ _ Ho1). eexists. eexists. split; [reflexivity|]. split; [now apply cy_empty|]. split; [apply inv_put; auto; now rewrite Ho1|].
    apply typed_put; auto. cbn. intros _. now apply (Ty src).
Qed.

(** copy_from *)
Lemma check_copy_spec mid own ms : check_copy E mid own ms = Ok tt -> forall m, In m ms -> if type_has_id own (mid m) then m_copy_asgn (e_mixin E m) = true else m_copy_init (e_mixin E m) = true.
Proof.
  induction ms as [|a ms IH]; intros H m Hm; [destruct Hm|]. cbn in H. destruct Hm as [->|Hm].
  - destruct (type_has_id own (mid m)); [destruct (m_copy_asgn _)|destruct (m_copy_init _)]; auto; discriminate.
  - apply IH; auto. destruct (type_has_id own (mid a)); [destruct (m_copy_asgn _)|destruct (m_copy_init _)]; auto; discriminate.
Qed.
Lemma check_copy_cases mid own ms : check_copy E mid own ms = Ok tt \/ check_copy E mid own ms = Throw EMissingFunc /\
  exists m, In m ms /\ if type_has_id own (mid m) then m_copy_asgn (e_mixin E m) = false else m_copy_init (e_mixin E m) = false.
Proof.
  induction ms as [|a ms IH]; [now left|]. cbn. destruct (type_has_id own (mid a)) eqn:Hh.
  - destruct (m_copy_asgn (e_mixin E a)) eqn:Hc; [|right; split; auto; exists a; rewrite Hh; auto]. destruct IH as [IH|(IH & m & Hm & Hx)]; [now left|right]. split; auto. exists m. auto.
  - destruct (m_copy_init (e_mixin E a)) eqn:Hc; [|right; split; auto; exists a; rewrite Hh; auto]. destruct IH as [IH|(IH & m & Hm & Hx)]; [now left|right]. split; auto. exists m. auto.
Qed.

Inductive from_out (s : st) (o : nat) (x : obj) (src : nat) (y : obj) (unw : bool) (s' : st) : res unit -> Prop :=
| fr_sealed : o_data y = None -> o_sealed x = true -> s' = s -> from_out s o x src y unw s' (Throw ESealed)
| fr_empty : o_data y = None -> o_sealed x = false -> emptied E s o x (Some (with_otype (with_odata x None) (o_type y))) s' -> from_out s o x src y unw s' (Ok tt)
| fr_check b r t dy q t0 m : whole s src y b r t dy -> o_type x = Some q -> w_type (s_w s) q = Some t0 -> In m (t_mixins t) ->
    (if type_has_id t0 (w_mid (s_w s) m) then m_copy_asgn (e_mixin E m) = false else m_copy_init (e_mixin E m) = false) ->
    s' = s -> from_out s o x src y unw s' (Throw EMissingFunc)
| fr_perf b r t dy q t0 res : whole s src y b r t dy -> o_type x = Some q -> w_type (s_w s) q = Some t0 ->
    (forall m, In m (t_mixins t) -> if type_has_id t0 (w_mid (s_w s) m) then m_copy_asgn (e_mixin E m) = true else m_copy_init (e_mixin E m) = true) ->
    fits s x t ->
    outcome E U s o x r t (fun t0 => cp_new E s t (o_data x) t0 dy) (cp_com dy) False unw s' res -> from_out s o x src y unw s' res.

Lemma act_from s o x src y unw : Inv s -> typed s -> s_obj s o = Some x -> o_type x <> None -> s_obj s src = Some y -> same_domain s o src ->
  exists s' res, copy_from E U unw o src s = (s', res) /\ from_out s o x src y unw s' res /\ Inv s' /\ typed s'.
Proof.
  intros I Ty Hx Hxt Hy Hsd. unfold copy_from. rewrite (bnd_ok _ _ _ _ _ (get_obj_step s o x Hx)), (bnd_ok _ _ _ _ _ (get_obj_step s src y Hy)).
  destruct (the_type_ok E s o x I Ty Hx Hxt) as (q & t0 & Hq & Ht0 & Hx1).
  destruct (o_data y) as [b|] eqn:Hb.
  2:{ destruct (o_sealed x) eqn:Hse.
      - rewrite (bnd_ok _ _ _ _ _ Hx1). eexists. eexists. split; [reflexivity|]. split; auto. now apply fr_sealed.
      - destruct (clear_mod E AM s o x (fun x => with_otype x (o_type y)) I Hx) as (s' & H1 & H2). exists s', (Ok tt). split; [exact H1|]. split; [now apply fr_empty|].
        apply (emptied_inv E s o x _ s' I Ty Hx) with (3 := H2); [reflexivity|]. cbn. now apply (Ty src). }
  destruct (whole_of s src y b I Hy Hb) as (r & t & dy & W). pose proof W as (_ & _ & A3 & A4 & A5 & P).
  rewrite (bnd_ok (the_type y) _ s s (r, t)) by (now apply the_type_step). rewrite (bnd_ok _ _ _ _ _ Hx1). unfold the_mid. rewrite (bnd_ok _ _ s s (w_mid (s_w s)) eq_refl). cbn [fst snd].
  destruct (check_copy_cases (w_mid (s_w s)) t0 (t_mixins t)) as [Hc|(Hc & m & Hm & Hmx)].
  2:{ rewrite Hc. rewrite (bnd_throw _ _ s s EMissingFunc eq_refl). eexists. eexists. split; [reflexivity|]. split; auto. eapply fr_check; eauto. }
  rewrite Hc. rewrite (bnd_ok _ _ s s tt eq_refl). pose proof (check_copy_spec _ _ _ Hc) as Hcs.
  assert (Hf : fits s x t).
  { intros b' q' t' Hb' Hq' Ht'. eapply (Hsd x y q' r t' t); eauto. destruct (whole_of s o x b' I Hx Hb') as (r2 & t2 & d2 & _ & _ & B3 & B4 & B5 & _). congruence. }
  destruct (perform_inv E U AM s o x r t (fun t0 => cp_new E s t (o_data x) t0 dy) (cp_com dy) False unw (update_each (copy_new_checked E U y) (copy_common E U y) None) I Ty Hx A4 Hf (or_introl A5)) as (s2 & res & H1 & H2 & I2 & Ty2).
  - intros old r0 t1 ddo SU H0.
    assert (Hself : forall i m, nth_error (t_mixins t) i = Some m -> own_addr (o_data x) t1 ddo (md_mixin (dy i)) -> exists oi, oidx s (o_data x) t1 m = Some oi /\ md_mixin (dy i) = oaddr ddo oi).
    { intros i m Hm (b' & oi & Hb' & Hoi & Hp). rewrite Hb' in H0. destruct H0 as [Hr0 Ht1]. destruct (su_old _ _ _ _ _ _ _ _ _ _ _ SU b' Hb') as (_ & Hw & _ & _ & P1).
      assert (W1 : whole s o x b' r0 t1 ddo) by (unfold whole; auto 10). assert (o = src).
      { apply (iv_sep _ _ I o src (fst (md_mixin (dy i)))); [rewrite Hp; eapply whole_foot; eauto|eapply whole_foot; eauto; now apply nth_error_lt in Hm]. }
      subst src. assert (y = x) as -> by congruence. assert (r0 = r) as -> by congruence. assert (t1 = t) as -> by congruence. assert (b' = b) as -> by congruence.
      exists i. unfold oidx, oaddr. rewrite Hb'. split.
      - eapply tg_idx; [apply (inv_good E AM s r t I A4)|exact Hm].
      - assert (Hi : i < length (t_mixins t)) by (now apply nth_error_lt in Hm). pose proof (whole_dat _ _ _ _ _ _ _ _ W Hi) as D1. pose proof (whole_dat _ _ _ _ _ _ _ _ W1 Hi) as D2. congruence. }
    assert (Hin : forall i m, nth_error (t_mixins t) i = Some m -> exists v, binst (s_blk s) (md_mixin (dy i)) = Some {| i_mixin := m; i_val := v |}) by (intros i m; eapply whole_inst; eauto).
    split; [now apply plan_copy_from|]. apply (body_copy_from E U s o x old r t (o_data x) r0 t1 ddo SU b y dy); auto.
    + eapply (foot_lt E s src b); eauto. eapply whole_main; eauto.
    + intros i. eapply (whole_dat s); eauto.
    + intros i m Hm. specialize (Hcs m (nth_error_In _ _ Hm)). unfold nw, oidx. rewrite Hm. assert (Hh : type_has_id t0 (w_mid (s_w s) m) = match (match o_data x with Some _ => index_of t1 (w_mid (s_w s) m) | None => None end) with Some _ => true | None => false end).
      { destruct (o_data x) as [b'|] eqn:Hb'.
        - destruct H0 as [Hr0 _]. destruct (su_old _ _ _ _ _ _ _ _ _ _ _ SU b' eq_refl) as (_ & Hw & _). assert (t1 = t0) as -> by congruence. reflexivity.
        - pose proof (Ty o x Hx Hb') as Hq'. rewrite Hq in Hq'. destruct q as [d|k]; [|destruct Hq']. destruct (type_empty E (s_w s) d (iv_reach _ _ I)) as (k & Hk).
          assert (t0 = set_nobj (empty_type d) k) as -> by congruence. unfold type_has_id, index_of. cbn. destruct (w_mid (s_w s) m) as [[|n]|]; reflexivity. }
      rewrite Hh in Hcs. destruct (match o_data x with Some _ => index_of t1 (w_mid (s_w s) m) | None => None end); exact Hcs.
  - exists s2, res. split; auto. split; auto. eapply fr_perf; eauto.
Qed.

End Act2.
