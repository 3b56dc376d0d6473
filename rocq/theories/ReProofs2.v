(** Nothing is called that cannot be, unless the outcome is undefined behaviour. *)
From Coq Require Import List Arith ZArith NArith Lia Bool.
From Verif Require Import Base Sv Info TypeBuild TypeQuery Msg Domain Heap Mutation Object ObjMsg Reenter SpecObj SpecRe.
Import ListNotations.

Section Re2.
Variable E : env.
Variable U : user.
Variable accepts : nat -> mptr -> bool.
Variable body : nat -> mptr -> addr -> st -> prog.
Variable dbody : nat -> nat -> st -> prog.
Definition fine (x : out) : Prop := (forall r, snd (snd x) = Some r -> ~ is_ub r) -> Forall (callable accepts) (fst x).
Lemma fine_ends s r : fine (ends s r).
Proof. intros _. constructor. Qed.
Lemma fine_ub s u L : fine (L, (s, Some (Ub u))).
Proof. intros H. exfalso. exact (H _ eq_refl I). Qed.
Lemma fine_logged e x : (fine (e :: fst x, snd x)) -> fine (logged e x).
Proof. auto. Qed.
Lemma fine_cons e x : ((forall r, snd (snd x) = Some r -> ~ is_ub r) -> callable accepts e) -> fine x -> fine (logged e x).
Proof. intros A B H. constructor; [exact (A H)|exact (B H)]. Qed.
Lemma fine_after x k : fine x -> (forall r s, fine (k r s)) -> fine (after x k).
Proof.
  destruct x as [L [s [[u|e|u]|]]]; intros A B; cbn [after].
  - intros H. cbn [fst snd] in *. apply Forall_app. split; [apply A; intros r [= <-] []|apply (B (Ok u) s); exact H].
  - intros H. cbn [fst snd] in *. apply Forall_app. split; [apply A; intros r [= <-] []|apply (B (Throw e) s); exact H].
  - exact A.
  - exact A.
Qed.
Lemma mixin_there o i k s mp : the_mixin accepts o i k s = Ok mp ->
  exists x b d y, s_obj s o = Some x /\ o_data x = Some b /\ data_slot s b i = Some d /\ instance s (md_mixin d) = Some y /\ accepts k (i_mixin y) = true.
Proof.
  unfold the_mixin, bnd, get_obj. destruct (s_obj s o) as [x|]; [|discriminate]. unfold data_at. destruct (o_data x) as [b|] eqn:Hb; [|discriminate].
  unfold read_data, bnd, get_blk, data_slot. destruct (s_blk s b) as [kb|] eqn:Hk; [|discriminate]. destruct (b_data kb i) as [d|] eqn:Hd; [|discriminate]. cbn [ret].
  unfold inst_at, bnd, get_blk, instance. destruct (s_blk s (fst (md_mixin d))) as [kc|] eqn:Hc; [|discriminate]. destruct (aget (snd (md_mixin d)) (b_inst kc)) as [y|] eqn:Hy; [|discriminate]. cbn [ret fst].
  destruct (accepts k (i_mixin y)) eqn:Ha; [|discriminate]. intros _. exists x, b, d, y. rewrite Hk, Hc. auto.
Qed.
Lemma after_ub s u k : after (ends s (Ub u)) k = ends s (Ub u).
Proof. reflexivity. Qed.
Lemma data_no_throw o i k s e : the_mixin accepts o i k s <> Throw e.
Proof.
  unfold the_mixin, bnd, get_obj. destruct (s_obj s o) as [x|]; [|discriminate]. unfold data_at. destruct (o_data x) as [b|]; [|discriminate].
  unfold read_data, bnd, get_blk. destruct (s_blk s b) as [kb|]; [|discriminate]. destruct (b_data kb i) as [d|]; [|discriminate]. cbn [ret].
  unfold inst_at, bnd, get_blk. destruct (s_blk s (fst (md_mixin d))) as [kc|]; [|discriminate]. destruct (aget (snd (md_mixin d)) (b_inst kc)) as [y|]; [|discriminate]. cbn [ret fst].
  destruct (accepts k (i_mixin y)); discriminate.
Qed.
Lemma fine_each run o r : (forall self P s, fine (run self P s)) -> forall l c s, fine (each accepts body dbody run o r c l s).
Proof.
  intros R. induction l as [|x l IH]; intros c s; [apply fine_ends|]. cbn [each]. destruct x as [i k|k].
  - destruct (w_type (s_w s) r) as [t|] eqn:Ht; [|rewrite after_ub; apply fine_ub]. destruct (the_mixin accepts o i k s) as [mp|e|u] eqn:Hm; [|destruct (data_no_throw _ _ _ _ _ Hm)|rewrite after_ub; apply fine_ub].
    apply fine_cons; [intros _; split; [eauto|exact (mixin_there _ _ _ _ _ Hm)]|]. apply fine_after; [apply R|]. intros [u|e|u] s1; [apply IH|apply fine_ends|apply fine_ends].
  - apply fine_cons; [intros _; exact I|]. apply fine_after; [apply R|]. intros [u|e|u] s1; [apply IH|apply fine_ends|apply fine_ends].
Qed.
Lemma fine_go n : forall self P s, fine (go E U accepts body dbody n self P s).
Proof.
  induction n as [|n IH]; intros self P s; [intros _; constructor|]. destruct P as [|e|op k|j k|mc o f k|nk f k]; cbn [go]; try apply fine_ends.
  - destruct (op_run E U op s) as [s1 r]. apply fine_cons; [intros _; exact I|]. apply fine_after; [apply fine_ends|auto].
  - destruct self as [[m p]|]; [|apply fine_ub]. destruct (update U j m p s) as [s1 r]. apply fine_cons; [intros _; exact I|]. apply fine_after; [apply fine_ends|auto].
  - apply fine_cons; [intros _; exact I|]. apply fine_after; [|auto]. destruct (sending E mc o f s); [apply fine_each; auto|apply fine_ends|apply fine_ends].
  - destruct self as [[m p]|]; [|apply fine_ub]. apply fine_cons; [intros _; exact I|]. apply fine_after; [|auto]. destruct (nexting nk m p f s); [apply fine_each; auto|apply fine_ends|apply fine_ends].
Qed.
End Re2.
