(** What each operation on objects does, and that it keeps the invariant *)
From Coq Require Import List Arith ZArith NArith Lia Bool.
From Verif Require Import Base Sv BaseLemmas Info TypeBuild TypeQuery Domain TypesProofs SpecDom HistProofs DomTheorems SpecLayout LayoutProofs Heap HeapProofs Mutation Object
  PartProofs RollProofs AllocProofs UpdProofs FinProofs PerfProofs WorldProofs ObjProofs OpProofs PlanProofs SpecObj.
Import ListNotations.

(** An empty object has no type or the empty type of a domain. *)
Definition typed (s : st) : Prop := forall o x, s_obj s o = Some x -> o_data x = None -> match o_type x with Some (TReg _) => False | _ => True end.

Section Act.
Variable E : env.
Variable U : user.
Hypothesis AM : aligned_mixins E.
Notation Inv := (Inv E).

Lemma same_type_iff s o x old r t ob r0 t0 ddo : setup E s o x old r t ob r0 t0 ddo -> (same_type (new_mut o x old r t) = true <-> o_type x = Some r).
Proof.
  intros SU. unfold same_type. cbn [new_mut mu_old mu_ref]. rewrite (su_otype _ _ _ _ _ _ _ _ _ _ _ SU). destruct (o_type x) as [q|] eqn:Hq; [|split; discriminate].
  destruct (w_type (s_w s) q) as [k|] eqn:Hk.
  - destruct (tref_eqb_spec q r) as [->|Hne]; split; auto; congruence.
  - split; [discriminate|]. intros [= ->]. rewrite (su_ty _ _ _ _ _ _ _ _ _ _ _ SU) in Hk. discriminate.
Qed.

Lemma type_alive s o x q : Inv s -> typed s -> s_obj s o = Some x -> o_type x = Some q -> w_type (s_w s) q <> None.
Proof.
  intros I Ty Ho Hq. destruct (o_data x) as [b|] eqn:Hb.
  - pose proof (iv_obj _ _ I o x Ho) as Hk. unfold obj_ok in Hk. rewrite Hb in Hk. destruct Hk as (r & t & dd & A1 & A2 & _). congruence.
  - specialize (Ty o x Ho Hb). rewrite Hq in Ty. destruct q as [d|m]; [|destruct Ty]. destruct (type_empty E (s_w s) d (iv_reach _ _ I)) as (k & Hk). congruence.
Qed.

(** The outcome of a mutation with a plan: the result and the state after it *)
Inductive outcome (s : st) (o : nat) (x : obj) (r : tref) (t : type_rec) (np : type_rec -> nat -> option (fn * option addr)) (cp : nat -> cact) (ord : Prop) (unw : bool) (s' : st) : res unit -> Prop :=
| out_same old r0 t0 ddo : setup E s o x old r t (o_data x) r0 t0 ddo -> match o_data x with Some _ => o_type x = Some r0 /\ t_mixins t0 <> [] | None => t_mixins t0 = [] end ->
    unw = false -> o_sealed x = false -> o_type x = Some r -> done_same s r t (o_data x) t0 ddo (np t0) cp s' -> outcome s o x r t np cp ord unw s' (Ok tt)
| out_to old r0 t0 ddo : setup E s o x old r t (o_data x) r0 t0 ddo -> match o_data x with Some _ => o_type x = Some r0 /\ t_mixins t0 <> [] | None => t_mixins t0 = [] end ->
    unw = false -> o_sealed x = false -> o_type x <> Some r -> done_to E s o x r t (o_data x) r0 t0 ddo (np t0) cp s' -> outcome s o x r t np cp ord unw s' (Ok tt)
| out_unw old r0 t0 ddo : setup E s o x old r t (o_data x) r0 t0 ddo -> match o_data x with Some _ => o_type x = Some r0 /\ t_mixins t0 <> [] | None => t_mixins t0 = [] end ->
    unw = true -> o_sealed x = false -> given_up E s o x old r t (o_data x) t0 ddo (np t0) cp s' -> outcome s o x r t np cp ord unw s' (Ok tt)
| out_thrown old r0 t0 ddo e : setup E s o x old r t (o_data x) r0 t0 ddo -> match o_data x with Some _ => o_type x = Some r0 /\ t_mixins t0 <> [] | None => t_mixins t0 = [] end ->
    given_up E s o x old r t (o_data x) t0 ddo (np t0) cp s' -> reason U s x t (o_data x) t0 (np t0) cp ord e -> (o_sealed x = true -> s' = s /\ e = ESealed) -> outcome s o x r t np cp ord unw s' (Throw e).

(** A mutation of a sealed object *)
Lemma perform_sealed s o x r t body unw : s_obj s o = Some x -> o_sealed x = true -> w_type (s_w s) r = Some t ->
  match o_type x with Some q => w_type (s_w s) q <> None | None => True end -> perform E U unw o r body s = (s, Throw ESealed).
Proof.
  intros Ho Hse Ht Hot. unfold perform. rewrite (bnd_ok _ _ _ _ _ (get_obj_step s o x Ho)).
  assert (Hold : exists old, get_old x s = (s, Ok old)).
  { unfold get_old. destruct (o_type x) as [q|]; [|eexists; reflexivity]. destruct (w_type (s_w s) q) as [k|] eqn:Hk; [|congruence]. rewrite (bnd_ok _ _ _ _ _ (get_ty_step s q k Hk)). eexists. reflexivity. }
  destruct Hold as (old & Hold). rewrite (bnd_ok _ _ _ _ _ Hold), (bnd_ok _ _ _ _ _ (get_ty_step s r t Ht)). unfold start. rewrite Hse.
  rewrite (bnd_throw (raise ESealed) (fun _ => body) (new_mut o x old r t, s) (new_mut o x old r t, s) ESealed eq_refl).
  destruct (rollback_none E (new_mut o x old r t) s eq_refl eq_refl eq_refl) as (mu' & Hr). rewrite (unwind_eq E ESealed (new_mut o x old r t) s mu' s eq_refl Hr). reflexivity.
Qed.

Lemma perform_inv s o x r t np cp ord unw body : Inv s -> typed s -> s_obj s o = Some x -> w_type (s_w s) r = Some t -> fits s x t -> (t_mixins t <> [] \/ o_type x = Some r) ->
  (forall old r0 t0 ddo, setup E s o x old r t (o_data x) r0 t0 ddo -> match o_data x with Some _ => o_type x = Some r0 /\ t_mixins t0 <> [] | None => t_mixins t0 = [] end ->
     plan_ok s t (o_data x) t0 ddo (np t0) cp /\ body_ok E U s o x old r t (o_data x) t0 ddo (np t0) cp ord body) ->
  exists s' res, perform E U unw o r body s = (s', res) /\ outcome s o x r t np cp ord unw s' res /\ Inv s' /\ typed s'.
Proof.
  intros I Ty Ho Ht Hf Hne Hpb. destruct (setup_of E AM s o x r t I Ho Ht Hf) as (old & r0 & t0 & ddo & SU & H0). destruct (Hpb old r0 t0 ddo SU H0) as [PK BO].
  pose proof (same_type_iff s o x old r t _ r0 t0 ddo SU) as Hst. assert (Hsf : same_type (new_mut o x old r t) = false -> o_type x <> Some r) by (intros H1 H2; apply Hst in H2; congruence).
  assert (Hot : match o_type x with Some q => w_type (s_w s) q <> None | None => True end) by (destruct (o_type x) as [q|] eqn:Hq; auto; eapply type_alive; eauto).
  destruct (perform_ok E U s o x old r t (o_data x) r0 t0 ddo SU (np t0) cp ord PK Hot body BO) with (unw := unw) as (s' & res & Hp & Hc).
  - intros Hs Hb. apply Hst in Hs. pose proof (Ty o x Ho Hb) as Hx. rewrite Hs in Hx. destruct r as [d|m]; [|destruct Hx].
    destruct (type_empty E (s_w s) d (iv_reach _ _ I)) as (k & Hk). rewrite Hk in Ht. injection Ht as <-. reflexivity.
  - intros Hs. destruct Hne as [Hne|Hne]; [|apply Hst in Hne; congruence]. destruct (t_mixins t); [congruence|discriminate].
  - exists s', res. split; auto. assert (Hk : forall oldv, kept s r t (o_data x) t0 ddo cp oldv s' -> Inv s' /\ typed s').
    { intros oldv K. split; [eapply inv_kept; eauto|]. intros o' x' Ho'. rewrite (kp_obj _ _ _ _ _ _ _ _ _ K) in Ho'. now apply (Ty o'). }
    destruct Hc as [(-> & -> & Hse & Hc)|[(-> & -> & Hse & Hc)|(e & -> & Hc & Hr)]].
    + destruct (same_type (new_mut o x old r t)) eqn:Hs.
      * split; [eapply out_same; eauto; now apply Hst|]. destruct Hc as (oldv & dd & K & _). eauto.
      * split; [eapply out_to; eauto|]. split; [eapply inv_done; eauto; destruct Hne as [Hne|Hne]; auto; exfalso; now apply Hsf|]. destruct Hc as (tb & dd & oldv & newv & s1 & D & _).
        intros o' x' Ho'. rewrite (dm_obj _ _ _ _ _ _ _ _ _ _ _ _ _ _ _ _ D) in Ho'. unfold upd in Ho'. destruct (Nat.eqb o' o); [injection Ho' as <-; discriminate|]. now apply (Ty o').
    + split; [eapply out_unw; eauto|]. destruct Hc as (oldv & k & tb & dd & u & lx & K & _). eauto.
    + split; [eapply out_thrown; eauto; intros Hse; rewrite (perform_sealed s o x r t body unw Ho Hse Ht Hot) in Hp; injection Hp as <- <-; auto|]. destruct Hc as (oldv & k & tb & dd & u & lx & K & _). eauto.
Qed.

(** ** Operations *)
Lemma may_fits s o x r : s_obj s o = Some x -> may_become s o r -> exists t, w_type (s_w s) r = Some t /\ fits s x t.
Proof.
  intros Ho (x' & t & A1 & A2 & A3). assert (x' = x) as -> by congruence. exists t. split; auto. intros b q t0 Hb Hq Ht0. apply (A3 (fun H => ltac:(congruence)) q); auto.
Qed.
Lemma not_empty_or s o x r t : s_obj s o = Some x -> w_type (s_w s) r = Some t -> not_to_empty s o r -> t_mixins t <> [] \/ o_type x = Some r.
Proof. intros Ho Ht [(t' & A1 & A2)|(x' & A1 & A2)]; [left|right]; congruence. Qed.
Lemma the_type_ok s o x : Inv s -> typed s -> s_obj s o = Some x -> o_type x <> None -> exists r t, o_type x = Some r /\ w_type (s_w s) r = Some t /\ the_type x s = (s, Ok (r, t)).
Proof.
  intros I Ty Ho Hn. destruct (o_type x) as [r|] eqn:Hr; [|congruence]. pose proof (type_alive s o x r I Ty Ho Hr) as Ha. destruct (w_type (s_w s) r) as [t|] eqn:Ht; [|congruence].
  exists r, t. split; auto. split; auto. now apply the_type_step.
Qed.
Lemma nil_empty s r t : Inv s -> w_type (s_w s) r = Some t -> t_mixins t = [] -> r = TEmpty (t_dom t).
Proof. intros I Ht Hn. destruct r as [d|n]; [|exfalso; eapply (type_nonempty E); eauto; apply (iv_reach _ _ I)]. destruct (type_empty E (s_w s) d (iv_reach _ _ I)) as (k & Hk). assert (t = set_nobj (empty_type d) k) as -> by congruence. reflexivity. Qed.

Lemma typed_put s o y : typed s -> match y with Some y => o_data y = None -> match o_type y with Some (TReg _) => False | _ => True end | None => True end -> typed (set_obj s o y).
Proof.
  intros Ty Hy o' x Ho. cbn [set_obj s_obj] in Ho. unfold upd in Ho. destruct (Nat.eqb o' o); [subst y; exact Hy|now apply (Ty o')].
Qed.

(** an object that was cleared and got another type (without mixins) or was destroyed *)
Definition emptied (s : st) (o : nat) (x : obj) (y : option obj) (s' : st) : Prop := exists s1, cleared E s o x s1 /\ s' = set_obj s1 o y.
Lemma emptied_inv s o x y s' : Inv s -> typed s -> s_obj s o = Some x -> data_of y = None -> match y with Some y => match o_type y with Some (TReg _) => False | _ => True end | None => True end ->
  emptied s o x y s' -> Inv s' /\ typed s'.
Proof.
  intros I Ty Ho Hy Hty (s1 & C & ->). assert (I1 : Inv s1) by (eapply inv_cleared; eauto). split.
  - apply inv_put; auto. rewrite (cl_obj _ _ _ _ _ C), Nat.eqb_refl. cbn. now rewrite Hy.
  - intros o' z Hz. cbn [set_obj s_obj] in Hz. unfold upd in Hz. destruct (Nat.eqb_spec o' o) as [->|Hne].
    + subst y. auto.
    + rewrite (cl_obj _ _ _ _ _ C) in Hz. apply Nat.eqb_neq in Hne. rewrite Hne in Hz. now apply (Ty o').
Qed.
Lemma clear_mod s o x f : Inv s -> s_obj s o = Some x -> exists s', bnd (clear_mixin_data E o) (fun _ => mod_obj o f) s = (s', Ok tt) /\ emptied s o x (Some (f (with_odata x None))) s'.
Proof.
  intros I Ho. destruct (clear_step E AM s o x I Ho) as (s1 & H1 & C). rewrite (bnd_ok _ _ _ _ _ H1), (mod_obj_step s1 o f (with_odata x None)).
  - eexists. split; [reflexivity|]. exists s1. auto.
  - now rewrite (cl_obj _ _ _ _ _ C), Nat.eqb_refl.
Qed.

Lemma act_dtor s o x : Inv s -> typed s -> s_obj s o = Some x -> exists s', obj_dtor E o s = (s', Ok tt) /\ emptied s o x None s' /\ Inv s' /\ typed s'.
Proof.
  intros I Ty Ho. unfold obj_dtor. destruct (clear_step E AM s o x I Ho) as (s1 & H1 & C). rewrite (bnd_ok _ _ _ _ _ H1).
  assert (Em : emptied s o x None (set_obj s1 o None)) by (exists s1; auto). exists (set_obj s1 o None). split; [reflexivity|]. split; auto. eapply emptied_inv; eauto; [reflexivity|exact Logic.I].
Qed.

Lemma act_empty s o d a : Inv s -> typed s -> s_obj s o = None ->
  let s' := set_obj s o (Some {| o_type := Some (TEmpty d); o_data := None; o_alloc := a; o_sealed := false |}) in
  new_empty o d a s = (s', Ok tt) /\ Inv s' /\ typed s'.
Proof.
  intros I Ty Ho. cbv zeta. unfold new_empty, fresh_obj. unfold bnd at 1. rewrite Ho. split; [reflexivity|]. split; [apply inv_put; auto; now rewrite Ho|]. apply typed_put; cbn; auto.
Qed.

Lemma act_seal s o x : Inv s -> typed s -> s_obj s o = Some x -> let s' := set_obj s o (Some (with_sealed x true)) in seal o s = (s', Ok tt) /\ Inv s' /\ typed s'.
Proof.
  intros I Ty Ho. cbv zeta. unfold seal. rewrite (mod_obj_step s o _ x Ho). split; [reflexivity|]. split; [apply inv_put; auto; now rewrite Ho|]. apply typed_put; auto. cbn. now apply (Ty o).
Qed.

Lemma act_clear s o x r t : Inv s -> typed s -> s_obj s o = Some x -> o_type x = Some r -> w_type (s_w s) r = Some t ->
  o_sealed x = true /\ clear E o s = (s, Throw ESealed) \/
  o_sealed x = false /\ exists s', clear E o s = (s', Ok tt) /\ emptied s o x (Some (with_otype (with_odata x None) (Some (TEmpty (t_dom t))))) s' /\ Inv s' /\ typed s'.
Proof.
  intros I Ty Ho Hr Ht. unfold clear. rewrite (bnd_ok _ _ _ _ _ (get_obj_step s o x Ho)), (bnd_ok _ _ _ _ _ (the_type_step s x r t Hr Ht)). cbn [snd]. destruct (o_sealed x); [now left|right]. split; auto.
  destruct (clear_mod s o x (fun x => with_otype x (Some (TEmpty (t_dom t)))) I Ho) as (s' & H1 & H2). exists s'. split; [exact H1|]. split; auto. eapply emptied_inv; eauto; [reflexivity|exact Logic.I].
Qed.

(** reset_type *)
Inductive reset_out (s : st) (o : nat) (x : obj) (r : tref) (unw : bool) (s' : st) : res unit -> Prop :=
| ro_sealed : o_sealed x = true -> s' = s -> reset_out s o x r unw s' (Throw ESealed)
| ro_same : o_sealed x = false -> o_type x = Some r -> s' = s -> reset_out s o x r unw s' (Ok tt)
| ro_empty t : o_sealed x = false -> o_type x <> Some r -> w_type (s_w s) r = Some t -> t_mixins t = [] -> r = TEmpty (t_dom t) ->
    emptied s o x (Some (with_otype (with_odata x None) (Some r))) s' -> reset_out s o x r unw s' (Ok tt)
| ro_perf t res : o_sealed x = false -> o_type x <> Some r -> w_type (s_w s) r = Some t -> t_mixins t <> [] -> fits s x t ->
    outcome s o x r t (fun _ => ov_new E t none) (up_com none) False unw s' res -> reset_out s o x r unw s' res.

Lemma act_reset s o x r unw : Inv s -> typed s -> s_obj s o = Some x -> (o_sealed x = true -> o_type x <> None) -> may_become s o r ->
  exists s' res, reset_type E U unw o r s = (s', res) /\ reset_out s o x r unw s' res /\ Inv s' /\ typed s'.
Proof.
  intros I Ty Ho Hnt Hm. destruct (may_fits s o x r Ho Hm) as (t & Ht & Hf). unfold reset_type. rewrite (bnd_ok _ _ _ _ _ (get_obj_step s o x Ho)). destruct (o_sealed x) eqn:Hse.
  { destruct (the_type_ok s o x I Ty Ho (Hnt eq_refl)) as (q & k & Hq & Hk & H1). rewrite (bnd_ok _ _ _ _ _ H1). exists s, (Throw ESealed). split; [reflexivity|]. split; auto. now apply ro_sealed. }
  destruct (match o_type x with Some q => tref_eqb r q | None => false end) eqn:Hsame.
  { exists s, (Ok tt). split; [reflexivity|]. split; auto. apply ro_same; auto. destruct (o_type x) as [q|]; [|discriminate]. destruct (tref_eqb_spec r q); congruence. }
  assert (Hne : o_type x <> Some r). { intros He. rewrite He in Hsame. destruct (tref_eqb_spec r r); congruence. }
  rewrite (bnd_ok _ _ _ _ _ (get_ty_step s r t Ht)). unfold num_mixins. destruct (Nat.eqb_spec (length (t_mixins t)) 0) as [Hz|Hz].
  - assert (Hn : t_mixins t = []) by (now apply length_zero_iff_nil). pose proof (nil_empty s r t I Ht Hn) as Hr.
    assert (Hrr : tref_eqb r (TEmpty (t_dom t)) = true) by (destruct (tref_eqb_spec r (TEmpty (t_dom t))); auto). rewrite Hrr.
    rewrite (bnd_ok (ret tt) _ s s tt eq_refl). destruct (clear_mod s o x (fun x => with_otype x (Some r)) I Ho) as (s' & H1 & H2). exists s', (Ok tt). split; [exact H1|]. split.
    + eapply ro_empty; eauto.
    + eapply emptied_inv; eauto; [reflexivity|]. cbn. rewrite Hr. exact Logic.I.
  - assert (Hn : t_mixins t <> []) by (intros Hn; rewrite Hn in Hz; auto).
    destruct (perform_inv s o x r t (fun _ => ov_new E t none) (up_com none) False unw (default_each E U None) I Ty Ho Ht Hf (or_introl Hn)) as (s' & res & H1 & H2 & H3 & H4).
    + intros old r0 t0 ddo SU H0. split; [apply plan_ov|]. eapply body_default; eauto.
    + exists s', res. split; [exact H1|]. split; auto. eapply ro_perf; eauto.
Qed.

End Act.
