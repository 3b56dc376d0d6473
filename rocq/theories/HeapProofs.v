(** Views of the memory and the effect of the primitive operations. *)
From Coq Require Import List Arith ZArith NArith Lia Bool.
From Verif Require Import Base Sv BaseLemmas Info TypeBuild TypeQuery Domain Heap.
Import ListNotations.

Notation blocks := (nat -> option block).

Definition battr (B : blocks) (b : nat) : option (aid * N * N) :=
  match B b with Some k => Some (b_alloc k, b_size k, b_align k) | None => None end.
Definition bdat (B : blocks) (b i : nat) : option mdata := match B b with Some k => b_data k i | None => None end.
Definition binst (B : blocks) (p : addr) : option inst := match B (fst p) with Some k => aget (snd p) (b_inst k) | None => None end.
Definition bback (B : blocks) (p : addr) : option nat := match B (fst p) with Some k => b_back k (snd p) | None => None end.

Definition addr_eqb (p q : addr) : bool := (fst p =? fst q) && (snd p =? snd q)%N.
Lemma addr_eqb_spec p q : reflect (p = q) (addr_eqb p q).
Proof.
  destruct p as [b o], q as [c n]. unfold addr_eqb. simpl. destruct (Nat.eqb_spec b c), (N.eqb_spec o n); simpl; constructor; congruence.
Qed.
Lemma addr_eqb_refl p : addr_eqb p p = true.
Proof. destruct (addr_eqb_spec p p); congruence. Qed.
Lemma aid_eqb_spec a b : reflect (a = b) (aid_eqb a b).
Proof. destruct a as [x|x], b as [y|y]; simpl; try (destruct (Nat.eqb_spec x y)); constructor; congruence. Qed.
Lemma aid_eqb_refl a : aid_eqb a a = true.
Proof. destruct (aid_eqb_spec a a); congruence. Qed.

(** association lists *)
Lemma aget_adel {A} k (l : list (N * A)) x : aget x (adel k l) = if (x =? k)%N then None else aget x l.
Proof.
  induction l as [|[y v] l IH]; simpl; [now destruct (x =? k)%N|].
  destruct (N.eqb_spec y k) as [Hy|Hy]; simpl; rewrite IH; destruct (N.eqb_spec x k) as [Hx|Hx]; destruct (N.eqb_spec y x) as [Hz|Hz]; auto; congruence.
Qed.
Lemma aget_aset {A} k (v : A) l x : aget x (aset k v l) = if (x =? k)%N then Some v else aget x l.
Proof.
  unfold aset. simpl. rewrite aget_adel. destruct (N.eqb_spec k x) as [Hk|Hk], (N.eqb_spec x k) as [Hx|Hx]; auto; congruence.
Qed.

(** ** Views after a change *)
Section Views.
Variable B : blocks.

Lemma battr_some b k : B b = Some k -> battr B b = Some (b_alloc k, b_size k, b_align k).
Proof. unfold battr. now intros ->. Qed.
Lemma battr_inv b a s l : battr B b = Some (a, s, l) -> exists k, B b = Some k /\ b_alloc k = a /\ b_size k = s /\ b_align k = l.
Proof. unfold battr. destruct (B b) as [k|]; [|discriminate]. intros [= <- <- <-]. eauto. Qed.
Lemma battr_ex b : battr B b <> None -> exists k, B b = Some k.
Proof. unfold battr. destruct (B b); eauto. congruence. Qed.
Lemma battr_none b : battr B b = None <-> B b = None.
Proof. unfold battr. destruct (B b); split; congruence. Qed.

Lemma binst_none p : B (fst p) = None -> binst B p = None.
Proof. unfold binst. now intros ->. Qed.

Section With.
Variables (b : nat) (k : block).
Hypothesis Hb : B b = Some k.
Definition bset (k' : block) : blocks := upd B b (Some k').

Lemma bset_same k' : bset k' b = Some k'.
Proof. apply upd_same. Qed.
Lemma bset_other k' c : c <> b -> bset k' c = B c.
Proof. apply upd_other. Qed.

Lemma battr_inst l c : battr (bset (with_inst k l)) c = battr B c.
Proof. unfold battr, bset, upd. destruct (Nat.eqb_spec c b) as [->|]; auto. now rewrite Hb. Qed.
Lemma bdat_inst l c i : bdat (bset (with_inst k l)) c i = bdat B c i.
Proof. unfold bdat, bset, upd. destruct (Nat.eqb_spec c b) as [->|]; auto. now rewrite Hb. Qed.
Lemma bback_inst l p : bback (bset (with_inst k l)) p = bback B p.
Proof. unfold bback, bset, upd. destruct (Nat.eqb_spec (fst p) b) as [->|]; auto. now rewrite Hb. Qed.
Lemma binst_set off x p : binst (bset (with_inst k (aset off x (b_inst k)))) p = if addr_eqb p (b, off) then Some x else binst B p.
Proof.
  unfold binst, bset, upd, addr_eqb. cbn [fst snd]. destruct (Nat.eqb_spec (fst p) b) as [Hp|]; cbn [andb]; auto.
  rewrite Hp, Hb. cbn [b_inst with_inst]. apply aget_aset.
Qed.
Lemma binst_del off p : binst (bset (with_inst k (adel off (b_inst k)))) p = if addr_eqb p (b, off) then None else binst B p.
Proof.
  unfold binst, bset, upd, addr_eqb. cbn [fst snd]. destruct (Nat.eqb_spec (fst p) b) as [Hp|]; cbn [andb]; auto.
  rewrite Hp, Hb. cbn [b_inst with_inst]. apply aget_adel.
Qed.

Lemma battr_data i d c : battr (bset (with_data k i d)) c = battr B c.
Proof. unfold battr, bset, upd. destruct (Nat.eqb_spec c b) as [->|]; auto. now rewrite Hb. Qed.
Lemma bdat_data i d c j : bdat (bset (with_data k i d)) c j = if (c =? b) && (j =? i) then Some d else bdat B c j.
Proof.
  unfold bdat, bset, upd. destruct (Nat.eqb_spec c b) as [->|]; simpl; auto. rewrite Hb. reflexivity.
Qed.
Lemma binst_data i d p : binst (bset (with_data k i d)) p = binst B p.
Proof. unfold binst, bset, upd. destruct (Nat.eqb_spec (fst p) b) as [->|]; auto. now rewrite Hb. Qed.
Lemma bback_data i d p : bback (bset (with_data k i d)) p = bback B p.
Proof. unfold bback, bset, upd. destruct (Nat.eqb_spec (fst p) b) as [->|]; auto. now rewrite Hb. Qed.

Lemma battr_back off o c : battr (bset (with_back k off o)) c = battr B c.
Proof. unfold battr, bset, upd. destruct (Nat.eqb_spec c b) as [->|]; auto. now rewrite Hb. Qed.
Lemma bdat_back off o c j : bdat (bset (with_back k off o)) c j = bdat B c j.
Proof. unfold bdat, bset, upd. destruct (Nat.eqb_spec c b) as [->|]; auto. now rewrite Hb. Qed.
Lemma binst_back off o p : binst (bset (with_back k off o)) p = binst B p.
Proof. unfold binst, bset, upd. destruct (Nat.eqb_spec (fst p) b) as [->|]; auto. now rewrite Hb. Qed.
Lemma bback_back off o p : bback (bset (with_back k off o)) p = if addr_eqb p (b, off) then Some o else bback B p.
Proof.
  unfold bback, bset, upd, addr_eqb. simpl. destruct (Nat.eqb_spec (fst p) b) as [->|]; simpl; auto.
  rewrite Hb. reflexivity.
Qed.
End With.
End Views.

(** ** The state after a primitive *)
Definition in_blk (s : st) (b : nat) (f : block -> block) : st :=
  match s_blk s b with Some k => set_blk s b (Some (f k)) | None => s end.
Definition st_inst (s : st) (p : addr) (x : inst) : st := in_blk s (fst p) (fun k => with_inst k (aset (snd p) x (b_inst k))).
Definition st_del (s : st) (p : addr) : st := in_blk s (fst p) (fun k => with_inst k (adel (snd p) (b_inst k))).
Definition st_data (s : st) (b i : nat) (d : mdata) : st := in_blk s b (fun k => with_data k i d).
Definition st_back (s : st) (p : addr) (o : nat) : st := in_blk s (fst p) (fun k => with_back k (snd p) o).

Definition has_blk (s : st) (b : nat) : Prop := battr (s_blk s) b <> None.
Lemma has_blk_ex s b : has_blk s b -> exists k, s_blk s b = Some k.
Proof. apply battr_ex. Qed.

(** two states that differ at most in memory, calls and log *)
Definition same_rest (s s' : st) : Prop := s_w s' = s_w s /\ s_obj s' = s_obj s /\ s_next s' = s_next s.
Lemma same_rest_refl s : same_rest s s.
Proof. repeat split. Qed.
Lemma same_rest_trans a b c : same_rest a b -> same_rest b c -> same_rest a c.
Proof. intros (A1 & A2 & A3) (B1 & B2 & B3). repeat split; congruence. Qed.

Lemma in_blk_rest s b f : same_rest s (in_blk s b f) /\ s_calls (in_blk s b f) = s_calls s /\ s_log (in_blk s b f) = s_log s.
Proof. unfold in_blk. destruct (s_blk s b); repeat split. Qed.
Lemma in_blk_other s b f c : c <> b -> s_blk (in_blk s b f) c = s_blk s c.
Proof. unfold in_blk. destruct (s_blk s b); auto. intros. simpl. now apply upd_other. Qed.
Lemma in_blk_none s b f c : s_blk (in_blk s b f) c = None <-> s_blk s c = None.
Proof.
  unfold in_blk. destruct (s_blk s b) as [k|] eqn:Hb; [|tauto]. simpl. unfold upd. destruct (Nat.eqb_spec c b) as [->|]; [|tauto].
  rewrite Hb. split; discriminate.
Qed.

Lemma st_inst_views s p x : has_blk s (fst p) ->
  let B := s_blk (st_inst s p x) in
  (forall c, battr B c = battr (s_blk s) c) /\ (forall c i, bdat B c i = bdat (s_blk s) c i) /\
  (forall q, bback B q = bback (s_blk s) q) /\ (forall q, binst B q = if addr_eqb q p then Some x else binst (s_blk s) q).
Proof.
  intros H. destruct (has_blk_ex _ _ H) as [k Hk]. unfold st_inst, in_blk. rewrite Hk. cbn [s_blk set_blk].
  split; [apply (battr_inst _ _ _ Hk)|]. split; [apply (bdat_inst _ _ _ Hk)|]. split; [apply (bback_inst _ _ _ Hk)|].
  intros q. etransitivity; [apply (binst_set _ _ _ Hk)|]. now destruct p.
Qed.
Lemma st_del_views s p : has_blk s (fst p) ->
  let B := s_blk (st_del s p) in
  (forall c, battr B c = battr (s_blk s) c) /\ (forall c i, bdat B c i = bdat (s_blk s) c i) /\
  (forall q, bback B q = bback (s_blk s) q) /\ (forall q, binst B q = if addr_eqb q p then None else binst (s_blk s) q).
Proof.
  intros H. destruct (has_blk_ex _ _ H) as [k Hk]. unfold st_del, in_blk. rewrite Hk. cbn [s_blk set_blk].
  split; [apply (battr_inst _ _ _ Hk)|]. split; [apply (bdat_inst _ _ _ Hk)|]. split; [apply (bback_inst _ _ _ Hk)|].
  intros q. etransitivity; [apply (binst_del _ _ _ Hk)|]. now destruct p.
Qed.
Lemma st_data_views s b i d : has_blk s b ->
  let B := s_blk (st_data s b i d) in
  (forall c, battr B c = battr (s_blk s) c) /\ (forall c j, bdat B c j = if (c =? b) && (j =? i) then Some d else bdat (s_blk s) c j) /\
  (forall q, bback B q = bback (s_blk s) q) /\ (forall q, binst B q = binst (s_blk s) q).
Proof.
  intros H. destruct (has_blk_ex _ _ H) as [k Hk]. unfold st_data, in_blk. rewrite Hk. cbn [s_blk set_blk].
  split; [apply (battr_data _ _ _ Hk)|]. split; [apply (bdat_data _ _ _ Hk)|]. split; [apply (bback_data _ _ _ Hk)|]. apply (binst_data _ _ _ Hk).
Qed.
Lemma st_back_views s p o : has_blk s (fst p) ->
  let B := s_blk (st_back s p o) in
  (forall c, battr B c = battr (s_blk s) c) /\ (forall c j, bdat B c j = bdat (s_blk s) c j) /\
  (forall q, bback B q = if addr_eqb q p then Some o else bback (s_blk s) q) /\ (forall q, binst B q = binst (s_blk s) q).
Proof.
  intros H. destruct (has_blk_ex _ _ H) as [k Hk]. unfold st_back, in_blk. rewrite Hk. cbn [s_blk set_blk].
  split; [apply (battr_back _ _ _ Hk)|]. split; [apply (bdat_back _ _ _ Hk)|]. split; [|apply (binst_back _ _ _ Hk)].
  intros q. etransitivity; [apply (bback_back _ _ _ Hk)|]. now destruct p.
Qed.

Section Steps.
Variable E : env.
Variable U : user.

Lemma put_inst_step s p x : has_blk s (fst p) -> put_inst p x s = (st_inst s p x, Ok tt).
Proof.
  intros H. destruct (has_blk_ex _ _ H) as [k Hk]. unfold put_inst, bnd, get_blk, st_inst, in_blk. rewrite Hk. reflexivity.
Qed.
Lemma del_inst_step s p : has_blk s (fst p) -> del_inst p s = (st_del s p, Ok tt).
Proof.
  intros H. destruct (has_blk_ex _ _ H) as [k Hk]. unfold del_inst, bnd, get_blk, st_del, in_blk. rewrite Hk. reflexivity.
Qed.
Lemma write_data_step s b i d : has_blk s b -> write_data b i d s = (st_data s b i d, Ok tt).
Proof.
  intros H. destruct (has_blk_ex _ _ H) as [k Hk]. unfold write_data, bnd, get_blk, st_data, in_blk. rewrite Hk. reflexivity.
Qed.
Lemma set_object_step s p o : has_blk s (fst p) -> set_object p o s = (st_back s p o, Ok tt).
Proof.
  intros H. destruct (has_blk_ex _ _ H) as [k Hk]. unfold set_object, bnd, get_blk, st_back, in_blk. rewrite Hk. reflexivity.
Qed.
Lemma read_data_step s b i d : bdat (s_blk s) b i = Some d -> read_data b i s = (s, Ok d).
Proof. unfold bdat, read_data, bnd, get_blk. destruct (s_blk s b) as [k|]; [|discriminate]. now intros ->. Qed.
Lemma live_step s m p x : binst (s_blk s) p = Some x -> i_mixin x = m -> live m p s = (s, Ok x).
Proof.
  unfold binst, live, bnd, get_blk. destruct (s_blk s (fst p)) as [k|]; [|discriminate]. intros -> <-. now rewrite Nat.eqb_refl.
Qed.
Definition vacant_at (s : st) (p : addr) : Prop := forall x, binst (s_blk s) p = Some x -> needs_destroy E x = false.
Lemma vacant_step s p : has_blk s (fst p) -> vacant_at s p -> vacant E p s = (s, Ok tt).
Proof.
  intros Hb Hv. destruct (has_blk_ex _ _ Hb) as [k Hk]. unfold vacant, bnd, get_blk. rewrite Hk.
  destruct (aget (snd p) (b_inst k)) as [x|] eqn:Hx; auto. rewrite (Hv x); auto. unfold binst. now rewrite Hk.
Qed.
Lemma get_obj_step s o x : s_obj s o = Some x -> get_obj o s = (s, Ok x).
Proof. unfold get_obj. now intros ->. Qed.
Lemma get_ty_step s r t : w_type (s_w s) r = Some t -> get_ty r s = (s, Ok t).
Proof. unfold get_ty. now intros ->. Qed.

(** allocation *)
Definition new_blk (a : aid) (size align : N) : block := {|
  b_alloc := a; b_size := size; b_align := align; b_data := fun _ => None; b_inst := []; b_back := fun _ => None |}.
Definition st_alloc (s : st) (a : aid) (size align : N) : st :=
  set_blk (add_next (add_log (add_call s) (EvAlloc a (s_next s) size align))) (s_next s) (Some (new_blk a size align)).
Lemma alloc_step s a size align :
  alloc U a size align s = if (an_err (u_ans U (s_calls s)) =? 0)%Z then (st_alloc s a size align, Ok (s_next s)) else (add_call s, Throw EBadAlloc).
Proof. unfold alloc, bnd, tick. destruct (an_err (u_ans U (s_calls s)) =? 0)%Z; reflexivity. Qed.

Definition st_free (s : st) (a : aid) (b : nat) (size align : N) : st := set_blk (add_log s (EvFree a b size align)) b None.
Lemma free_step s a b size align : battr (s_blk s) b = Some (a, size, align) ->
  (forall off x, binst (s_blk s) (b, off) = Some x -> needs_destroy E x = false) -> free E a b size align s = (st_free s a b size align, Ok tt).
Proof.
  intros Hb Hd. destruct (battr_inv _ _ _ _ _ Hb) as (k & Hk & <- & <- & <-). unfold free, bnd, get_blk. rewrite Hk, aid_eqb_refl, !N.eqb_refl. simpl.
  assert (all_dead E (b_inst k) = true) as ->; auto. unfold all_dead. apply forallb_forall. intros off _.
  destruct (aget off (b_inst k)) as [x|] eqn:Hx; auto. rewrite (Hd off x); auto. unfold binst. simpl. now rewrite Hk.
Qed.

(** calls of user functions *)
Definition st_call (s : st) (f : fn) (m : mptr) (p : addr) (src : option addr) (e : Z) : st := add_log (add_call s) (EvCall f m p src e).
Definition cur_ans (s : st) : answer := u_ans U (s_calls s).

Lemma construct_step s f m p src v : has_blk s (fst p) -> vacant_at s p ->
  match src with Some q => exists x, binst (s_blk s) q = Some x /\ i_mixin x = m /\ i_val x = v | None => v = an_val (cur_ans s) end ->
  construct E U f m p src s =
    if (an_err (cur_ans s) =? 0)%Z then (st_inst (st_call s f m p src 0) p {| i_mixin := m; i_val := v |}, Ok tt)
    else (st_call s f m p src (an_err (cur_ans s)), Throw (EUserFunc (an_err (cur_ans s)))).
Proof.
  intros Hb Hv Hs. unfold construct. cbv beta iota delta [bnd tick]. rewrite vacant_step by auto. fold (cur_ans s).
  destruct src as [q|].
  - destruct Hs as (x & Hx & Hm & <-). rewrite (live_step (add_call s) m q x) by auto. simpl.
    destruct (Z.eqb_spec (an_err (cur_ans s)) 0) as [->|]; auto. rewrite put_inst_step by auto. reflexivity.
  - subst v. simpl. destruct (Z.eqb_spec (an_err (cur_ans s)) 0) as [->|]; auto. rewrite put_inst_step by auto. reflexivity.
Qed.

Lemma binst_has s p x : binst (s_blk s) p = Some x -> has_blk s (fst p).
Proof. unfold binst, has_blk, battr. destruct (s_blk s (fst p)); congruence. Qed.

Lemma copy_asgn_step s m p src x y : binst (s_blk s) p = Some x -> i_mixin x = m -> binst (s_blk s) src = Some y -> i_mixin y = m ->
  copy_asgn U m p src s =
    if (an_err (cur_ans s) =? 0)%Z then (st_inst (st_call s FCopyAsgn m p (Some src) 0) p {| i_mixin := m; i_val := i_val y |}, Ok tt)
    else (st_inst (st_call s FCopyAsgn m p (Some src) (an_err (cur_ans s))) p {| i_mixin := m; i_val := an_val (cur_ans s) |}, Throw (EUserFunc (an_err (cur_ans s)))).
Proof.
  intros Hx Hm Hy Hn. pose proof (binst_has _ _ _ Hx) as Hb. unfold copy_asgn. cbv beta iota delta [bnd tick]. fold (cur_ans s).
  rewrite (live_step (add_call s) m p x), (live_step (add_call s) m src y) by auto. simpl.
  destruct (Z.eqb_spec (an_err (cur_ans s)) 0) as [->|]; rewrite put_inst_step by auto; reflexivity.
Qed.
Lemma update_step s k m p x : binst (s_blk s) p = Some x -> i_mixin x = m ->
  update U k m p s =
    (st_inst (st_call s (FUpdate k) m p None (an_err (cur_ans s))) p {| i_mixin := m; i_val := an_val (cur_ans s) |},
     if (an_err (cur_ans s) =? 0)%Z then Ok tt else Throw (EUserFunc (an_err (cur_ans s)))).
Proof.
  intros Hx Hm. pose proof (binst_has _ _ _ Hx) as Hb. unfold update. cbv beta iota delta [bnd tick]. fold (cur_ans s).
  rewrite (live_step (add_call s) m p x) by auto. simpl. rewrite put_inst_step by auto.
  destruct (Z.eqb_spec (an_err (cur_ans s)) 0) as [->|]; reflexivity.
Qed.
Lemma has_blk_inst s p x b : has_blk s b -> has_blk (st_inst s p x) b.
Proof. unfold has_blk. rewrite !battr_none. intros H. unfold st_inst. now rewrite in_blk_none. Qed.
Lemma move_init_step s m p src x : has_blk s (fst p) -> vacant_at s p -> binst (s_blk s) src = Some x -> i_mixin x = m ->
  move_init E U m p src s =
    (st_inst (st_inst (st_call s FMoveInit m p (Some src) 0) p {| i_mixin := m; i_val := i_val x |}) src {| i_mixin := m; i_val := an_val (cur_ans s) |}, Ok tt).
Proof.
  intros Hb Hv Hx Hm. unfold move_init. cbv beta iota delta [bnd tick]. fold (cur_ans s). rewrite vacant_step by auto.
  rewrite (live_step (add_call s) m src x) by auto. simpl. rewrite put_inst_step by auto.
  rewrite put_inst_step; auto. apply has_blk_inst. exact (binst_has _ _ _ Hx).
Qed.
Lemma move_asgn_step s m p src x y : binst (s_blk s) p = Some y -> i_mixin y = m -> binst (s_blk s) src = Some x -> i_mixin x = m ->
  move_asgn U m p src s =
    (st_inst (st_inst (st_call s FMoveAsgn m p (Some src) 0) p {| i_mixin := m; i_val := i_val x |}) src {| i_mixin := m; i_val := an_val (cur_ans s) |}, Ok tt).
Proof.
  intros Hy Hn Hx Hm. pose proof (binst_has _ _ _ Hy) as Hb. unfold move_asgn. cbv beta iota delta [bnd tick]. fold (cur_ans s).
  rewrite (live_step (add_call s) m p y), (live_step (add_call s) m src x) by auto. simpl. rewrite put_inst_step by auto.
  rewrite put_inst_step; auto. apply has_blk_inst. exact (binst_has _ _ _ Hx).
Qed.
Lemma destroy_step s m p x : binst (s_blk s) p = Some x -> i_mixin x = m -> m_destroy (e_mixin E m) = true ->
  destroy E m p s = (st_del (add_log s (EvCall FDestroy m p None 0)) p, Ok tt).
Proof.
  intros Hx Hm Hd. pose proof (binst_has _ _ _ Hx) as Hb. unfold destroy. rewrite Hd. cbv beta iota delta [bnd]. rewrite (live_step s m p x) by auto. simpl.
  rewrite del_inst_step by auto. reflexivity.
Qed.
Lemma destroy_null s m p : m_destroy (e_mixin E m) = false -> destroy E m p s = (s, Ok tt).
Proof. unfold destroy. now intros ->. Qed.

End Steps.
