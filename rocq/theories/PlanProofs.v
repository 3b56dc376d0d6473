(** What the bodies of the mutations of the library do, as plans *)
From Coq Require Import List Arith ZArith NArith Lia Bool.
From Verif Require Import Base Sv BaseLemmas Info TypeBuild TypeQuery Domain TypesProofs LayoutProofs Heap HeapProofs Mutation Object
  PartProofs RollProofs AllocProofs UpdProofs FinProofs PerfProofs.
Import ListNotations.

(** Init functions *)
Definition def_new (E : env) (t : type_rec) (i : nat) : option (fn * option addr) :=
  match nth_error (t_mixins t) i with Some m => if m_init (e_mixin E m) then Some (FInit, None) else None | None => None end.
Definition no_com (i : nat) : cact := CNone.

(** Override number [ov i] for index [i], init functions for the others *)
Definition ov_new (E : env) (t : type_rec) (ov : nat -> option nat) (i : nat) : option (fn * option addr) :=
  match ov i with Some k => Some (FOverride k, None) | None => def_new E t i end.
Definition up_com (up : nat -> option nat) (i : nat) : cact := match up i with Some k => CUpd k | None => CNone end.

Section Plan.
Variable E : env.
Variable U : user.
Variables (s0 : st) (o : nat) (x : obj) (old : option (tref * type_rec)) (r : tref) (t : type_rec) (ob : option nat) (r0 : tref) (t0 : type_rec) (ddo : nat -> mdata).
Hypothesis SU : setup E s0 o x old r t ob r0 t0 ddo.
Notation oidx := (oidx s0 ob t0).
Notation nw := (nw s0 t ob t0).
Notation n := (length (t_mixins t)).
Notation B0 := (s_blk s0).
Notation body_ok := (body_ok E U s0 o x old r t ob t0 ddo).
Notation plan_ok := (plan_ok s0 t ob t0 ddo).
Notation conf := (conf E U s0 t ob t0).

Lemma plan_ov ov up : plan_ok (ov_new E t ov) (up_com up).
Proof.
  constructor.
  - intros i m f src _ H. unfold ov_new, def_new in H. destruct (ov i); [discriminate|]. destruct (nth_error _ i); [|discriminate]. destruct (m_init _); discriminate.
  - intros i m src _ H. unfold up_com in H. destruct (up i); discriminate.
Qed.
Lemma dflt_ov ov up i : ov i = None -> up i = None -> dflt E t (ov_new E t ov) (up_com up) i.
Proof. intros H1 H2 m Hm. unfold ov_new, up_com, def_new. rewrite H1, H2, Hm. auto. Qed.

Definition none (i : nat) : option nat := None.

Lemma body_default : body_ok (ov_new E t none) (up_com none) False (default_each E U None).
Proof.
  intros sm tb dd nx ws lg mu s oldv newv (S1 & S2 & S3) I.
  eapply went_weak; [eapply (default_step E U s0 o x old r t ob r0 t0 ddo SU sm tb dd nx ws lg S1 S2 _ _ (plan_ov _ _) S3 False None 0); eauto|].
  - intros i _. now apply dflt_ov.
  - intros u -> i Hi. unfold upto_of in Hi. lia.
Qed.

(** ** Copies from another object *)
Section Source.
Variables (b : nat) (y : obj) (dy : nat -> mdata).
Hypothesis Hyb : o_data y = Some b.
Hypothesis Hb : b < s_next s0.
Hypothesis Hdy : forall i, i < n -> bdat B0 b i = Some (dy i).
Hypothesis Hy : forall i m, nth_error (t_mixins t) i = Some m -> exists v, binst B0 (md_mixin (dy i)) = Some {| i_mixin := m; i_val := v |}.

Lemma data_at_step s i : dat_same s0 s -> i < n -> data_at y i s = (s, Ok (md_mixin (dy i))).
Proof.
  intros H Hi. unfold data_at. rewrite Hyb. assert (bdat (s_blk s) b i = Some (dy i)) by (rewrite H; auto).
  now rewrite (bnd_ok _ _ _ _ _ (read_data_step s b i _ H0)).
Qed.

Definition cp_new (i : nat) : option (fn * option addr) :=
  if nw i then match nth_error (t_mixins t) i with Some m => if m_copy_init (e_mixin E m) then Some (FCopyInit, Some (md_mixin (dy i))) else None | None => None end else None.
Definition cp_com (i : nat) : cact := CCopy (md_mixin (dy i)).

Lemma plan_copy : (forall i, i < n -> ~ own_addr ob t0 ddo (md_mixin (dy i))) -> plan_ok cp_new no_com.
Proof.
  intros Ho. constructor; [|discriminate]. intros i m f src Hm H. unfold cp_new in H. destruct (nw i); [|discriminate]. rewrite Hm in H.
  destruct (m_copy_init _); [|discriminate]. injection H as <- <-. split; [now apply Hy|]. apply Ho. now apply nth_error_lt in Hm.
Qed.
Lemma body_copy : (forall i, i < n -> ~ own_addr ob t0 ddo (md_mixin (dy i))) -> body_ok cp_new no_com False (construct_each (copy_new E U y) None).
Proof.
  intros Ho sm tb dd nx ws lg mu s oldv newv (S1 & S2 & S3) I.
  eapply went_weak; [eapply (each_step E U s0 o x old r t ob r0 t0 ddo SU sm tb dd nx ws lg S1 S2 _ _ (plan_copy Ho) S3 False _ _ None 0); eauto|].
  - intros i [_ Hi]. unfold upto_of in Hi. intros m Hm. split; [|reflexivity]. intros Hn p s1 Hs. unfold copy_new. rewrite (bnd_ok _ _ _ _ _ (data_at_step s1 i Hs Hi)).
    unfold cp_new. rewrite Hn, Hm. destruct (m_copy_init (e_mixin E m)); reflexivity.
  - intros u -> i Hi. unfold upto_of in Hi. lia.
Qed.

(** An address of the object itself is the one of the same mixin. *)
Hypothesis Hself : forall i m, nth_error (t_mixins t) i = Some m -> own_addr ob t0 ddo (md_mixin (dy i)) -> exists oi, oidx m = Some oi /\ md_mixin (dy i) = oaddr ddo oi.
Lemma plan_copy_from : plan_ok cp_new cp_com.
Proof.
  constructor.
  - intros i m f src Hm H. unfold cp_new in H. destruct (nw i) eqn:Hn; [|discriminate]. rewrite Hm in H.
    destruct (m_copy_init _); [|discriminate]. injection H as <- <-. split; [now apply Hy|]. intros Hw. destruct (Hself i m Hm Hw) as (oi & Hoi & _).
    unfold AllocProofs.nw in Hn. rewrite Hm, Hoi in Hn. discriminate.
  - intros i m src Hm [= <-]. split; [now apply Hy|]. intros Hw. now apply Hself.
Qed.
Lemma body_copy_from : (forall i m, nth_error (t_mixins t) i = Some m -> if nw i then m_copy_init (e_mixin E m) = true else m_copy_asgn (e_mixin E m) = true) ->
  body_ok cp_new cp_com False (update_each (copy_new_checked E U y) (copy_common E U y) None).
Proof.
  intros Hc sm tb dd nx ws lg mu s oldv newv (S1 & S2 & S3) I.
  eapply went_weak; [eapply (each_step E U s0 o x old r t ob r0 t0 ddo SU sm tb dd nx ws lg S1 S2 _ _ plan_copy_from S3 False _ _ None 0); eauto|].
  - intros i [_ Hi]. unfold upto_of in Hi. intros m Hm. specialize (Hc i m Hm). split.
    + intros Hn p s1 Hs. unfold copy_new_checked. rewrite (bnd_ok _ _ _ _ _ (data_at_step s1 i Hs Hi)). unfold cp_new. rewrite Hn in *. rewrite Hm, Hc. reflexivity.
    + intros oi p s1 Hoi Hs. unfold copy_common. rewrite (bnd_ok _ _ _ _ _ (data_at_step s1 i Hs Hi)). unfold cp_com.
      assert (Hn : nw i = false) by (unfold AllocProofs.nw; now rewrite Hm, Hoi). rewrite Hn in Hc. now rewrite Hc.
  - intros u -> i Hi. unfold upto_of in Hi. lia.
Qed.
End Source.

(** ** mutate_to with ops *)
Definition ops_ov (l : list (nat * mptr * nat)) (i : nat) : option nat :=
  match find (fun p => snd p =? i) l with Some p => Some (fst (fst p)) | None => None end.
Inductive ascends : nat -> list (nat * mptr * nat) -> Prop :=
| as_nil u : ascends u []
| as_cons u k m i l : u <= i -> ascends (S i) l -> ascends u ((k, m, i) :: l).
Lemma ascends_le u l : ascends u l -> forall p, In p l -> u <= snd p.
Proof. induction 1 as [|u k m i l Hi Hl IH]; intros p []; [subst; auto|]. specialize (IH p H). lia. Qed.

Lemma body_ops_loop l : (forall k m i, In (k, m, i) l -> nth_error (t_mixins t) i = Some m) -> ascends 0 l ->
  body_ok (ov_new E t (ops_ov l)) (up_com none) False (ops_loop E U l).
Proof.
  intros Hl Ha sm tb dd nx ws lg mu s oldv newv (S1 & S2 & S3) I. set (ov := ops_ov l).
  assert (Hov : forall k, 0 <= k -> ops_ov l k = ov k) by auto.
  assert (Hgen : forall l' u mu s oldv newv, (forall p, In p l' -> In p l) -> ascends u l' -> (forall i, u <= i -> ops_ov l' i = ov i) ->
    PB E s0 o x old r t ob t0 ddo sm tb dd nx ws lg (ov_new E t ov) (up_com none) u None [] oldv newv mu s ->
    went E U s0 o x old r t ob t0 ddo sm tb dd nx ws lg (ov_new E t ov) (up_com none) False (ops_loop E U l' (mu, s)) (fun u => forall i, u <= i < n -> dflt E t (ov_new E t ov) (up_com none) i)).
  { clear mu s oldv newv I. induction l' as [|[[k m] i] l' IH]; intros u mu s oldv newv Hin Hasc Hov' I; cbn [ops_loop].
    - left. exists u, mu, s, oldv, newv. split; [reflexivity|]. split; auto. intros i Hi. apply dflt_ov; auto. rewrite <- Hov' by lia. reflexivity.
    - inversion Hasc as [|? ? ? ? ? Hui Hasc']; subst. assert (Hm : nth_error (t_mixins t) i = Some m) by (apply (Hl k m i), Hin; now left).
      pose proof (nth_error_lt _ _ _ Hm) as Hi. assert (Hup : upto_of t (Some i) = i) by (unfold upto_of; destruct (Nat.ltb_spec n i); lia).
      assert (Hlow : forall j, u <= j < i -> ov j = None).
      { intros j Hj. rewrite <- Hov' by lia. unfold ops_ov. cbn [find snd]. destruct (Nat.eqb_spec i j); [lia|]. destruct (find _ l') as [p|] eqn:Hf; auto.
        apply find_some in Hf. destruct Hf as [Hf1 Hf2]. apply Nat.eqb_eq in Hf2. apply (ascends_le _ _ Hasc') in Hf1. lia. }
      eapply went_bind; [reflexivity|eapply (default_step E U s0 o x old r t ob r0 t0 ddo SU sm tb dd nx ws lg S1 S2 _ _ (plan_ov _ _) S3 False (Some i) u); eauto|].
      { rewrite Hup. intros j Hj. apply dflt_ov; auto. }
      intros u' mu' s' ov' nv' I' ->. rewrite Hup in *. assert (Hmax : Nat.max u i = i) by lia. rewrite Hmax in *.
      eapply went_bind; [reflexivity|eapply (next_step E U s0 o x old r t ob r0 t0 ddo SU sm tb dd nx ws lg S1 S2 _ _ (plan_ov _ _) S3 False); eauto|].
      { intros m' Hm'. assert (m' = m) as -> by congruence. split.
        - intros Hn p s1 _. unfold ov_new. rewrite <- Hov' by lia. unfold ops_ov. cbn [find snd]. rewrite Nat.eqb_refl. cbn [fst]. reflexivity.
        - intros oi p s1 _ _. reflexivity. }
      intros u' mu2 s2 ov2 nv2 I2 ->. apply (IH (S i) mu2 s2 ov2 nv2); auto.
      + intros p Hp. apply Hin. now right.
      + intros j Hj. rewrite <- Hov' by lia. unfold ops_ov. cbn [find snd]. destruct (Nat.eqb_spec i j); [lia|reflexivity]. }
  apply (Hgen l 0 mu s oldv newv); auto.
Qed.

(** ** The C functions: both go over the mixins and call update_at for those with an override *)
Lemma body_at_loop (loop : list (nat * mptr) -> M mst unit) ov up (has : mptr -> bool) (cn : mptr -> cb_new) (uc : mptr -> cb_common) :
  loop [] = ret tt -> (forall i m l, loop ((i, m) :: l) = bnd (if has m then update_at E U i (cn m) (uc m) else ret tt) (fun _ => loop l)) ->
  (forall i m, nth_error (t_mixins t) i = Some m -> if has m then conf (ov_new E t ov) (up_com up) i (cn m) (uc m) else ov i = None /\ up i = None) ->
  body_ok (ov_new E t ov) (up_com up) False (loop (enumerate 0 (t_mixins t))).
Proof.
  intros Hnil Hcons Hh sm tb dd nx ws lg mu s oldv newv (S1 & S2 & S3) I.
  assert (Hgen : forall ms k u mu s oldv newv, (forall j, nth_error ms j = nth_error (t_mixins t) (k + j)) -> u <= k -> (forall i, u <= i < k -> dflt E t (ov_new E t ov) (up_com up) i) ->
    PB E s0 o x old r t ob t0 ddo sm tb dd nx ws lg (ov_new E t ov) (up_com up) u None [] oldv newv mu s ->
    went E U s0 o x old r t ob t0 ddo sm tb dd nx ws lg (ov_new E t ov) (up_com up) False (loop (enumerate k ms) (mu, s)) (fun u => forall i, u <= i < n -> dflt E t (ov_new E t ov) (up_com up) i)).
  { clear mu s oldv newv I. induction ms as [|m ms IH]; intros k u mu s oldv newv Hms Huk Hd I; cbn [enumerate].
    - rewrite Hnil. left. exists u, mu, s, oldv, newv. split; [reflexivity|]. split; auto. intros i Hi. apply Hd. pose proof (Hms 0) as H0. rewrite Nat.add_0_r in H0. symmetry in H0. apply nth_error_None in H0. lia.
    - rewrite Hcons. pose proof (Hms 0) as H0. cbn [nth_error] in H0. rewrite Nat.add_0_r in H0. symmetry in H0. pose proof (nth_error_lt _ _ _ H0) as Hk. specialize (Hh k m H0) as Hm.
      assert (Hms' : forall j, nth_error ms j = nth_error (t_mixins t) (S k + j)) by (intros j; specialize (Hms (S j)); cbn [nth_error] in Hms; rewrite Hms; f_equal; lia).
      destruct (has m) eqn:Hhm.
      + eapply went_bind; [reflexivity|eapply (at_step E U s0 o x old r t ob r0 t0 ddo SU sm tb dd nx ws lg S1 S2 _ _ (plan_ov _ _) S3 False _ _ k u); eauto; intros; try lia; split; auto; intros; apply Hd; lia|].
        intros u' mu' s' ov' nv' I' [_ ->]. apply (IH (S k) (S k) mu' s' ov' nv'); auto. intros i Hi. lia.
      + rewrite (bnd_ok (ret tt) _ (mu, s) (mu, s) tt eq_refl). apply (IH (S k) u mu s oldv newv); auto. intros i Hi. destruct (Nat.eq_dec i k) as [->|]; [|apply Hd; lia]. destruct Hm. now apply dflt_ov. }
  apply (Hgen (t_mixins t) 0 0 mu s oldv newv); auto. intros i Hi. lia.
Qed.

Definition cover_of (cs : list cover) (i : nat) : option cover := match nth_error (t_mixins t) i with Some m => find (cover_matches E m) cs | None => None end.
Definition cover_ov (cs : list cover) (i : nat) : option nat := match cover_of cs i with Some c => co_init c | None => None end.
Definition cover_up (cs : list cover) (i : nat) : option nat := match cover_of cs i with Some c => co_update c | None => None end.
Lemma body_cover cs : body_ok (ov_new E t (cover_ov cs)) (up_com (cover_up cs)) False (cover_loop E U cs (enumerate 0 (t_mixins t))).
Proof.
  apply (body_at_loop (cover_loop E U cs) _ _ (fun m => match find (cover_matches E m) cs with Some _ => true | None => false end)
    (fun m => match find (cover_matches E m) cs with Some c => wrap_init E U c | None => default_init E U end)
    (fun m => match find (cover_matches E m) cs with Some c => wrap_update U c | None => noop_common end)).
  - reflexivity.
  - intros i m l. cbn [cover_loop]. destruct (find (cover_matches E m) cs); reflexivity.
  - intros i m Hm. destruct (find (cover_matches E m) cs) as [c|] eqn:Hf.
    + intros m' Hm'. assert (m' = m) as -> by congruence. unfold ov_new, up_com, cover_ov, cover_up, cover_of. rewrite Hm, Hf. split.
      * intros _ p s _. unfold wrap_init. destruct (co_init c); auto. unfold def_new, default_init. rewrite Hm. destruct (m_init (e_mixin E m)); reflexivity.
      * intros oi p s _ _. unfold wrap_update. destruct (co_update c); reflexivity.
    + unfold cover_ov, cover_up, cover_of. rewrite Hm, Hf. auto.
Qed.

Definition cop_ov (cs : list cop) (i : nat) : option nat :=
  match nth_error (t_mixins t) i with Some m => match find (cop_matches E m) cs with Some c => cp_init c | None => None end | None => None end.
Lemma cop_matches_init m c cs : find (cop_matches E m) cs = Some c -> exists k, cp_init c = Some k.
Proof. intros H. apply find_some in H. destruct H as [_ H]. unfold cop_matches in H. destruct (cp_init c); [eauto|]. rewrite andb_false_r in H. discriminate. Qed.
Lemma body_cop cs : body_ok (ov_new E t (cop_ov cs)) (up_com none) False (cop_loop E U cs (enumerate 0 (t_mixins t))).
Proof.
  apply (body_at_loop (cop_loop E U cs) _ _ (fun m => match find (cop_matches E m) cs with Some _ => true | None => false end)
    (fun m => match find (cop_matches E m) cs with Some c => wrap_cop E U c | None => default_init E U end) (fun m => noop_common)).
  - reflexivity.
  - intros i m l. cbn [cop_loop]. destruct (find (cop_matches E m) cs); reflexivity.
  - intros i m Hm. destruct (find (cop_matches E m) cs) as [c|] eqn:Hf.
    + intros m' Hm'. assert (m' = m) as -> by congruence. unfold ov_new, cop_ov. rewrite Hm, Hf. destruct (cop_matches_init m c cs Hf) as (k & Hk). split.
      * intros _ p s _. unfold wrap_cop. rewrite Hk. reflexivity.
      * reflexivity.
    + unfold cop_ov. rewrite Hm, Hf. auto.
Qed.

(** ** Piecewise: the calls tell which index gets which functions *)
Definition cut (u : option nat) : nat := match u with Some k => Nat.min k n | None => n end.
Lemma cut_upto u : upto_of t u = cut u.
Proof. destruct u as [k|]; unfold upto_of, cut; auto. destruct (Nat.ltb_spec n k); lia. Qed.
(** the number of the functions used for index [i] when the calls [ps] start at index [u] *)
Fixpoint steps_ov (ps : list pstep) (u i : nat) : option nat :=
  match ps with
  | [] => None
  | PAt j k :: ps => if (j <? u) || (n <? j) then None else if i <? j then None else if i =? j then Some k else steps_ov ps (Nat.min (S j) n) i
  | PNext k :: ps => if i =? u then Some k else steps_ov ps (Nat.min (S u) n) i
  | PEach k up :: ps => if i <? cut up then Some k else steps_ov ps (Nat.max u (cut up)) i
  | PDefault up :: ps => if i <? cut up then None else steps_ov ps (Nat.max u (cut up)) i
  | _ :: ps => steps_ov ps u i
  end.
(** the indices of update_at do not go back, and are not past the end *)
Fixpoint in_order (ps : list pstep) (u : nat) : Prop :=
  match ps with
  | [] => True
  | PAt j k :: ps => u <= j <= n /\ in_order ps (Nat.min (S j) n)
  | PNext k :: ps => in_order ps (Nat.min (S u) n)
  | PEach _ up :: ps => in_order ps (Nat.max u (cut up))
  | PDefault up :: ps => in_order ps (Nat.max u (cut up))
  | _ :: ps => in_order ps u
  end.
Definition is_simple (p : pstep) : bool := match p with PFinalize | PRollback => false | PNext _ | PAt _ _ => negb (n =? 0) | _ => true end.

Lemma conf_user ov up i k : ov i = Some k -> up i = Some k -> conf (ov_new E t ov) (up_com up) i (user_new E U k) (user_common U k).
Proof. intros H1 H2 m Hm. unfold ov_new, up_com. rewrite H1, H2. auto. Qed.

Lemma body_steps ps : forallb is_simple ps = true ->
  body_ok (ov_new E t (steps_ov ps 0)) (up_com (steps_ov ps 0)) (~ in_order ps 0) (run_psteps E U ps).
Proof.
  intros Hps sm tb dd nx ws lg mu s oldv newv (S1 & S2 & S3) I. set (ov := steps_ov ps 0) in *.
  assert (Hgen : forall ps' u mu s oldv newv, forallb is_simple ps' = true -> (forall i, u <= i < n -> steps_ov ps' u i = ov i) -> (in_order ps 0 -> in_order ps' u) ->
    PB E s0 o x old r t ob t0 ddo sm tb dd nx ws lg (ov_new E t ov) (up_com ov) u None [] oldv newv mu s ->
    went E U s0 o x old r t ob t0 ddo sm tb dd nx ws lg (ov_new E t ov) (up_com ov) (~ in_order ps 0) (run_psteps E U ps' (mu, s)) (fun u => forall i, u <= i < n -> dflt E t (ov_new E t ov) (up_com ov) i)).
  { clear mu s oldv newv I. induction ps' as [|p ps' IH]; intros u mu s oldv newv Hs Hov Hin I; cbn [run_psteps].
    - left. exists u, mu, s, oldv, newv. split; [reflexivity|]. split; auto. intros i Hi. pose proof (Hov i Hi). apply dflt_ov; auto.
    - cbn [forallb] in Hs. apply andb_true_iff in Hs. destruct Hs as [Hp Hs]. pose proof (pb_le _ _ _ _ _ _ _ _ _ _ _ _ _ _ _ _ _ _ _ _ _ _ _ _ _ I) as Hu.
      destruct p as [j k|k|k up|up| |]; cbn [run_pstep steps_ov is_simple in_order] in *; try discriminate.
      + apply negb_true_iff, Nat.eqb_neq in Hp. destruct (Nat.ltb_spec j u) as [Hj|Hj]; cbn [orb] in Hov.
        { right. exists u, mu, s, oldv, newv, None, [], EBadPiecewise. split; [|split; [auto|]; right; split; [intros Hq; apply Hin in Hq; lia|auto]]. apply (bnd_throw _ _ _ _ _ (at_bad E U s0 o x old r t ob t0 ddo sm tb dd nx ws lg _ _ _ _ j u oldv newv mu s I (or_introl Hj))). }
        destruct (Nat.ltb_spec n j) as [Hnj|Hnj]; cbn [orb] in Hov.
        { right. exists u, mu, s, oldv, newv, None, [], EBadPiecewise. split; [|split; [auto|]; right; split; [intros Hq; apply Hin in Hq; lia|auto]]. apply (bnd_throw _ _ _ _ _ (at_bad E U s0 o x old r t ob t0 ddo sm tb dd nx ws lg _ _ _ _ j u oldv newv mu s I (or_intror Hnj))). }
        destruct (Nat.eq_dec j n) as [->|Hjn].
        * (* past the end: everything is initialised, and nothing more *)
          eapply went_bind with (good := fun u' => u' = n); [reflexivity| |].
          { unfold update_at. rewrite (bnd_ok _ _ _ _ _ (get_mu_step mu s)). pose proof (pb_mu _ _ _ _ _ _ _ _ _ _ _ _ _ _ _ _ _ _ _ _ _ _ _ _ _ I) as (_ & _ & _ & _ & M5 & _).
            unfold num_mixins. rewrite M5, (pb_uu _ _ _ _ _ _ _ _ _ _ _ _ _ _ _ _ _ _ _ _ _ _ _ _ _ I). destruct (Nat.ltb_spec n u); [lia|]. rewrite Nat.ltb_irrefl. cbn [orb].
            eapply went_bind; [reflexivity|eapply (default_step E U s0 o x old r t ob r0 t0 ddo SU sm tb dd nx ws lg S1 S2 _ _ (plan_ov _ _) S3 (~ in_order ps 0) (Some n) u); eauto|].
            - intros i Hi. rewrite cut_upto in Hi. cbn [cut] in Hi. rewrite Nat.min_id in Hi. assert (ov i = None) by (rewrite <- Hov by lia; destruct (Nat.ltb_spec i n); [reflexivity|lia]). now apply dflt_ov.
            - intros u' mu' s' ov' nv' I' Hu'. rewrite cut_upto in Hu'. cbn [cut] in Hu'. assert (u' = n) as -> by lia.
              left. exists n, mu', s', ov', nv'. split; [|auto]. eapply next_done; eauto. }
          intros u' mu' s' ov' nv' I' ->. apply (IH n mu' s' ov' nv'); auto; [intros i Hi; lia|]. intros Hq. apply Hin in Hq. destruct Hq as [_ Hq]. now rewrite Nat.min_r in Hq by lia.
        * eapply went_bind; [reflexivity|eapply (at_step E U s0 o x old r t ob r0 t0 ddo SU sm tb dd nx ws lg S1 S2 _ _ (plan_ov _ _) S3 (~ in_order ps 0) _ _ j u); eauto; [lia|intros; lia|]|].
          { intros _. assert (Hjo : ov j = Some k) by (rewrite <- Hov by lia; destruct (Nat.ltb_spec j j); [lia|]; now rewrite Nat.eqb_refl). split; [now apply conf_user|].
            intros i Hi. assert (ov i = None) by (rewrite <- Hov by lia; destruct (Nat.ltb_spec i j); [reflexivity|lia]). now apply dflt_ov. }
          intros u' mu' s' ov' nv' I' [_ ->]. apply (IH (S j) mu' s' ov' nv'); auto; [|intros Hq; apply Hin in Hq; destruct Hq as [_ Hq]; now rewrite Nat.min_l in Hq by lia]. intros i Hi. rewrite <- Hov by lia. destruct (Nat.ltb_spec i j); [lia|]. destruct (Nat.eqb_spec i j); [lia|]. f_equal. lia.
      + apply negb_true_iff, Nat.eqb_neq in Hp. destruct (Nat.eq_dec u n) as [->|Hun].
        * rewrite (bnd_ok _ _ _ _ _ (next_done E s0 o x old r t ob t0 ddo sm tb dd nx ws lg _ _ _ _ n oldv newv mu s I eq_refl Hp)). apply (IH n mu s oldv newv); auto; [intros i Hi; lia|]. intros Hq. apply Hin in Hq. now rewrite Nat.min_r in Hq by lia.
        * eapply went_bind; [reflexivity|eapply (next_step E U s0 o x old r t ob r0 t0 ddo SU sm tb dd nx ws lg S1 S2 _ _ (plan_ov _ _) S3 (~ in_order ps 0) _ _ u); eauto; [lia|]|].
          { assert (ov u = Some k) by (rewrite <- Hov by lia; now rewrite Nat.eqb_refl). now apply conf_user. }
          intros u' mu' s' ov' nv' I' ->. apply (IH (S u) mu' s' ov' nv'); auto; [|intros Hq; apply Hin in Hq; now rewrite Nat.min_l in Hq by lia]. intros i Hi. rewrite <- Hov by lia. destruct (Nat.eqb_spec i u); [lia|]. f_equal. lia.
      + eapply went_bind; [reflexivity|eapply (each_step E U s0 o x old r t ob r0 t0 ddo SU sm tb dd nx ws lg S1 S2 _ _ (plan_ov _ _) S3 (~ in_order ps 0) _ _ up u); eauto|].
        { intros i Hi. rewrite cut_upto in Hi. assert (cut up <= n) by (unfold cut; destruct up; lia). assert (ov i = Some k) by (rewrite <- Hov by lia; destruct (Nat.ltb_spec i (cut up)); [reflexivity|lia]). now apply conf_user. }
        intros u' mu' s' ov' nv' I' ->. rewrite cut_upto in *. apply (IH (Nat.max u (cut up)) mu' s' ov' nv'); auto. intros i Hi. rewrite <- Hov by lia. destruct (Nat.ltb_spec i (cut up)); [lia|reflexivity].
      + eapply went_bind; [reflexivity|eapply (default_step E U s0 o x old r t ob r0 t0 ddo SU sm tb dd nx ws lg S1 S2 _ _ (plan_ov _ _) S3 (~ in_order ps 0) up u); eauto|].
        { intros i Hi. rewrite cut_upto in Hi. assert (cut up <= n) by (unfold cut; destruct up; lia). assert (ov i = None) by (rewrite <- Hov by lia; destruct (Nat.ltb_spec i (cut up)); [reflexivity|lia]). now apply dflt_ov. }
        intros u' mu' s' ov' nv' I' ->. rewrite cut_upto in *. apply (IH (Nat.max u (cut up)) mu' s' ov' nv'); auto. intros i Hi. rewrite <- Hov by lia. destruct (Nat.ltb_spec i (cut up)); [lia|reflexivity]. }
  apply (Hgen ps 0 mu s oldv newv); auto.
Qed.

End Plan.
