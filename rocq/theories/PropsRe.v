(** Property C87: messages whose functions call the library. *)
From Coq Require Import List Arith ZArith NArith Lia Bool Permutation Sorted.
From Verif Require Import Base Sv Info TypeBuild TypeQuery Msg MixinInfo Domain SpecReg SpecDom SpecOrd SpecLayout SpecList SpecMsg Heap HeapProofs Mutation Object ObjMsg Reenter SpecObj SpecMut SpecAct SpecSend SpecRe HistProofs TypesProofs ObjProofs ActProofs MutProofs2 ActProofs3 ObjTheorems ObjTheorems10 SendProofs ReProofs ReProofs2 ExEnv ExObj PropsObj PropsSend.
Import ListNotations.

(** A program sends messages; their functions make calls and send messages themselves, and so on. As long as all of it keeps to the contracts nothing is undefined
    (also before it is done). It comes to the same as the calls it makes, one after the other: what is proved of histories holds during and after messages. *)
Theorem C87_history : forall E U accepts body dbody n self P tr s log s' res, aligned_mixins E -> payloads_fit E accepts -> listed_once E -> kept_history E U tr s ->
  go E U accepts body dbody n self P s = (log, (s', res)) -> Forall (respects E) log ->
  (forall r, res = Some r -> ~ is_ub r) /\ exists tr', calls_made log tr' /\ kept_history E U (tr ++ tr') s'.
Proof.
  intros E U accepts body dbody n self P tr s log s' res A FIT LO H G R. pose proof (good_go E U A accepts FIT LO body dbody (respects E) (q_respects E U) n self P s) as K. rewrite G in K. destruct (K tr H R) as (_ & K1 & _ & K2). auto.
Qed.
Print Assumptions C87_history.
(** Functions that do not change the objects which messages go to keep to the contracts on mixins: their own mixins stay where they are, and messages go on. *)
Theorem C87_alone : forall E U accepts body dbody n self P tr s log s' res objs, aligned_mixins E -> payloads_fit E accepts -> listed_once E -> kept_history E U tr s ->
  (forall m p, self = Some (m, p) -> exists o i v, In o objs /\ holds s o i m p v) -> go E U accepts body dbody n self P s = (log, (s', res)) -> Forall (leaves_alone E objs) log ->
  Forall (respects E) log /\ forall o, In o objs -> (forall r t, type_of s o r t -> exists t', type_of s' o r t') /\ forall i m p v, holds s o i m p v -> exists v', holds s' o i m p v'.
Proof.
  intros E U accepts body dbody n self P tr s log s' res objs A FIT LO H M G R. pose proof (calm_go E U A accepts FIT LO body dbody objs n self P s M (good_go E U A accepts FIT LO body dbody (respects E) (q_respects E U) n self P s) tr H) as K.
  rewrite G in K. exact (K R).
Qed.
Print Assumptions C87_alone.
(** An external mixin may go on after it has mutated its object, if the object still has it. *)
Theorem C87_external : forall E U tr s op o s' i j m p v, aligned_mixins E -> history E U tr s -> fair E s op -> mutates op = Some (o, false) -> op_run E U op s = (s', Ok tt) ->
  holds s o j m p v -> has_mixin s' o i m -> external (e_mixin E m) = true -> (forall k, ~ upds E op m k) -> still_there s' m p.
Proof.
  intros E U tr s op o s' i j m p v A H F Mu R Hh Hm Hx Hu. destruct (C36_keeps E U tr s op o s' A H F Mu R) as (l & _ & K). destruct (K i j m p v Hm Hh Hu) as (p' & Hp & [(_ & -> & _)|(N & _)]); [exists o, i, v; exact Hp|congruence].
Qed.
Print Assumptions C87_external.
(** The functions are those of C24, C25, C27 and C28, by the type of the object when the message is sent. *)
Theorem C87_send : forall E U tr s o r t f, aligned_mixins E -> kept_history E U tr s -> type_of s o r t -> feature_in (s_w s) (t_dom t) f -> impls E (t_mixins t) f <> [] ->
  (exists x, sending E false o f s = Ok (r, [exec_of x]) /\ In x (impls E (t_mixins t) f) /\ forall y, In y (impls E (t_mixins t) f) -> ~ preferred y x) /\
  (exists xs, sending E true o f s = Ok (r, map exec_of xs) /\ Permutation xs (top_bidders (impls E (t_mixins t) f)) /\ StronglySorted executed_before xs).
Proof. intros E U tr s o r t f A. exact (sending_impls E U A tr s o r t f). Qed.
Print Assumptions C87_send.
Theorem C87_default : forall E U tr s o r t f mc, aligned_mixins E -> kept_history E U tr s -> type_of s o r t -> feature_in (s_w s) (t_dom t) f \/ w_fid (s_w s) f = None -> impls E (t_mixins t) f = [] ->
  sending E mc o f s = match f_default (e_feature E f) with Some k => Ok (r, [ExecDefault k]) | None => Throw ENotImplemented end.
Proof. intros E U tr s o r t f mc A. exact (sending_default E U A tr s o r t f mc). Qed.
Print Assumptions C87_default.
Theorem C87_next : forall E U tr s o i m p v r t f, aligned_mixins E -> listed_once E -> kept_history E U tr s -> type_of s o r t -> feature_in (s_w s) (t_dom t) f -> holds s o i m p v ->
  exists l, Permutation l (impls E (t_mixins t) f) /\ StronglySorted (fun a b => ~ preferred b a) l /\
    (forall k x, nth_error l k = Some x -> fst x = i -> nexting NImpl m p f s = match nth_error l (S k) with Some y => Ok (o, r, [exec_of y]) | None => Throw ENotImplemented end) /\
    (forall x, In (i, x) l -> let b := next_bidders (ff_bid x) (impls E (t_mixins t) f) in
       (b = [] -> nexting NSet m p f s = Throw ENotImplemented /\ nexting NTop m p f s = Throw ENotImplemented) /\
       (b <> [] -> exists xs last, Permutation (xs ++ [last]) b /\ StronglySorted executed_before (xs ++ [last]) /\ (forall y, In y b -> ~ preferred y last) /\
          nexting NSet m p f s = Ok (o, r, map exec_of (xs ++ [last])) /\ nexting NTop m p f s = Ok (o, r, [exec_of last]))) /\
    (forall n, ~ In i (map fst l) -> nexting n m p f s = Throw ENotImplemented).
Proof. intros E U tr s o i m p v r t f A LO. exact (nexting_impls E U A LO tr s o i m p v r t f). Qed.
Print Assumptions C87_next.

(** A message calls these functions in order, each with the mixin that the object has then, until one throws; the exception comes to the sender, which goes on as it will.
    What happens in between is in the log, in this order. A message that nobody implements throws in the sender. *)
Theorem C87_delivered : forall E U accepts body dbody n self mc o f k tr s log s' res, aligned_mixins E -> payloads_fit E accepts -> listed_once E -> kept_history E U tr s ->
  let run := go E U accepts body dbody n in
  go E U accepts body dbody (S n) self (PSend mc o f k) s = (log, (s', Some res)) -> Forall (respects E) log ->
  exists L s1 r1 rest, log = ESend s o f :: L ++ rest /\ run self (k r1 s1) s1 = (rest, (s', Some res)) /\
    match sending E mc o f s with Ok (r, l) => delivers (function_runs run body dbody o) o r 0 l s L s1 r1 | Throw e => L = [] /\ s1 = s /\ r1 = Throw e | Ub _ => False end.
Proof. intros E U accepts body dbody n self mc o f k tr s log s' res A FIT LO H. exact (send_steps E U A accepts FIT LO body dbody n self mc o f k tr s log s' res H). Qed.
Print Assumptions C87_delivered.
Theorem C87_delivered_next : forall E U accepts body dbody n m p nk f k tr s log s' res, aligned_mixins E -> payloads_fit E accepts -> listed_once E -> kept_history E U tr s ->
  let run := go E U accepts body dbody n in
  go E U accepts body dbody (S n) (Some (m, p)) (PNext nk f k) s = (log, (s', Some res)) -> Forall (respects E) log ->
  exists L s1 r1 rest, log = ENext s m p f :: L ++ rest /\ run (Some (m, p)) (k r1 s1) s1 = (rest, (s', Some res)) /\
    match nexting nk m p f s with Ok (o, r, l) => delivers (function_runs run body dbody o) o r 0 l s L s1 r1 | Throw e => L = [] /\ s1 = s /\ r1 = Throw e | Ub _ => False end.
Proof. intros E U accepts body dbody n m p nk f k tr s log s' res A FIT LO H. exact (next_steps E U A accepts FIT LO body dbody n m p nk f k tr s log s' res H). Qed.
Print Assumptions C87_delivered_next.
(** The other steps of programs *)
Theorem C87_steps : forall E U accepts body dbody n self s log s' res, ~ is_ub res -> let run := go E U accepts body dbody in
  (forall op k, run (S n) self (PCall op k) s = (log, (s', Some res)) -> exists s1 r1 rest, op_run E U op s = (s1, r1) /\ log = ECall s op r1 :: rest /\ run n self (k r1 s1) s1 = (rest, (s', Some res))) /\
  (forall j k m p o i v, self = Some (m, p) -> holds s o i m p v -> run (S n) self (PSelf j k) s = (log, (s', Some res)) ->
     exists s1 r1 rest, op_run E U (OUse o i j) s = (s1, r1) /\ log = ESelf s m p j r1 :: rest /\ run n self (k r1 s1) s1 = (rest, (s', Some res))) /\
  run (S n) self PRet s = ([], (s, Some (Ok tt))) /\ forall e, run (S n) self (PThrow e) s = ([], (s, Some (Throw e))).
Proof.
  intros E U accepts body dbody n self s log s' res Hu run. split; [intros op k G; exact (call_steps E U accepts body dbody n self op k s log s' res G Hu)|].
  split; [intros j k m p o i v -> Hh G; exact (self_steps E U accepts body dbody n m p j k s o i v log s' res Hh G Hu)|]. split; reflexivity.
Qed.
Print Assumptions C87_steps.

(** ** A concrete case *)
(** The contracts, computed, for objects 1 to 3 *)
Section Check.
Variable E : env.
Definition the_objects : list nat := [1; 2; 3].
Definition holdsb (s : st) (m : mptr) (p : addr) (o : nat) : bool :=
  match recb s o with
  | Some (_, t) => existsb (fun im => (snd im =? m) && match get_at s o (fst im) with Ok (Some q) => addr_eqb q p && match instance s q with Some n => i_mixin n =? m | None => false end | _ => false end) (enumerate 0 (t_mixins t))
  | None => false
  end.
Definition registeredb (w : world) (d : dptr) (f : fptr) : bool := match get_feature_by_id w d (w_fid w f) with Some g => g =? f | None => false end.
Definition checkb (e : entry) : bool :=
  match e with
  | ECall s op _ => fairb E s op && match op with ODom (DUnregFeature _ _) => false | _ => true end
  | ESelf s m p _ _ => existsb (holdsb s m p) the_objects
  | ESend s o f => match recb s o with Some (_, t) => registeredb (s_w s) (t_dom t) f | None => false end
  | ENext s m p f => existsb (fun o => holdsb s m p o && match recb s o with Some (_, t) => registeredb (s_w s) (t_dom t) f | None => false end) the_objects
  | EOn s o r (S _) (ExecImpl _ _) => match recb s o with Some (q, _) => tref_eqb q r | None => false end
  | EOn _ _ _ _ _ => true
  | ENoThis _ => false
  end.
Lemma enum_in {A} (l : list A) : forall k i x, In (i, x) (enumerate k l) -> exists j, i = k + j /\ nth_error l j = Some x.
Proof. induction l as [|y l IH]; intros k i x H; [destruct H|]. destruct H as [[= <- <-]|H]; [exists 0; split; [lia|reflexivity]|]. destruct (IH (S k) i x H) as (j & -> & Hj). exists (S j). split; [lia|exact Hj]. Qed.
Lemma recb_type s o q t : recb s o = Some (q, t) -> type_of s o q t.
Proof. unfold recb. destruct (s_obj s o) as [x|] eqn:Hx; [|discriminate]. destruct (o_type x) as [r|] eqn:Hr; [|discriminate]. destruct (w_type (s_w s) r) as [t'|] eqn:Ht; [|discriminate]. intros [= <- <-]. exists x. auto. Qed.
Lemma holdsb_ok s m p o : holdsb s m p o = true -> exists i v, holds s o i m p v.
Proof.
  unfold holdsb. destruct (recb s o) as [[q t]|] eqn:Hr; [|discriminate]. intros H. apply existsb_exists in H. destruct H as ([i m'] & Hin & H). cbn [fst snd] in H. apply andb_true_iff in H. destruct H as [Hm H]. apply Nat.eqb_eq in Hm. subst m'.
  destruct (get_at s o i) as [[q'|]|e|u] eqn:Hg; try discriminate. apply andb_true_iff in H. destruct H as [Hp H]. destruct (addr_eqb_spec q' p) as [->|]; [|discriminate]. destruct (instance s p) as [[m' v]|] eqn:Hi; [|discriminate]. cbn in H. apply Nat.eqb_eq in H. subst m'.
  exists i, v. destruct (enum_in _ _ _ _ Hin) as (j & -> & Hj). split; [|auto]. exists q, t. split; [now apply recb_type|exact Hj].
Qed.
Lemma registeredb_ok w d f : registeredb w d f = true -> feature_in w d f.
Proof. unfold registeredb, feature_in. destruct (get_feature_by_id w d (w_fid w f)) as [g|]; [|discriminate]. intros H. apply Nat.eqb_eq in H. now subst. Qed.
Lemma checkb_ok e : reachable E (s_w (state_of e)) -> checkb e = true -> respects E e.
Proof.
  intros R H. destruct e as [s op r|s m p j r|s o f|s m p f|s o r [|c] [i k|k]|s]; cbn [checkb state_of respects] in *; auto; try discriminate.
  - apply andb_true_iff in H. destruct H as [H1 H2]. split; [now apply fairb_ok|]. intros d ->. destruct d; try exact Logic.I. discriminate.
  - apply existsb_exists in H. destruct H as (o & _ & H). destruct (holdsb_ok _ _ _ _ H) as (i & v & Hh). exists o, i, v. exact Hh.
  - destruct (recb s o) as [[q t]|] eqn:Hr; [|discriminate]. exists q, t. split; [now apply recb_type|left; now apply registeredb_ok].
  - apply existsb_exists in H. destruct H as (o & _ & H). apply andb_true_iff in H. destruct H as [H1 H2]. destruct (holdsb_ok _ _ _ _ H1) as (i & v & Hh). destruct (recb s o) as [[q t]|] eqn:Hr; [|discriminate].
    exists o, i, v, q, t. split; auto. split; [now apply recb_type|now apply registeredb_ok].
  - destruct (recb s o) as [[q t]|] eqn:Hr; [|discriminate]. destruct (tref_eqb_spec q r) as [->|]; [|discriminate]. exists t. now apply recb_type.
Qed.
Variable U : user.
Hypothesis AM : aligned_mixins E.
Lemma checked_respects accepts body dbody n self P tr s : payloads_fit E accepts -> listed_once E -> kept_history E U tr s ->
  forallb checkb (fst (go E U accepts body dbody n self P s)) = true -> Forall (respects E) (fst (go E U accepts body dbody n self P s)).
Proof.
  intros FIT LO H C. rewrite forallb_forall in C. assert (HQ : forall e tr, kept_history E U tr (state_of e) -> checkb e = true -> respects E e).
  { intros e tr0 H0. apply checkb_ok. exact (proj2 (proj2 (kept_inv E U AM tr0 _ H0))). }
  apply (good_go E U AM accepts FIT LO body dbody (fun e => checkb e = true) HQ n self P s tr H). apply Forall_forall. exact C.
Qed.
(** The first of two functions makes one call *)
Lemma chain accepts body dbody n self o f k s r i1 k1 x2 mp op s1 t u :
  sending E true o f s = Ok (r, [ExecImpl i1 k1; x2]) -> w_type (s_w s) r = Some t -> the_mixin accepts o i1 k1 s = Ok mp -> body k1 (fst mp) (snd mp) s = PCall op (fun _ _ => PRet) -> op_run E U op s = (s1, Ok tt) ->
  each accepts body dbody (go E U accepts body dbody (S (S n))) o r 1 [x2] s1 = ([EOn s1 o r 1 x2], (s1, Some (Ub u))) ->
  go E U accepts body dbody (S (S (S n))) self (PSend true o f k) s = ([ESend s o f; EOn s o r 0 (ExecImpl i1 k1); ECall s op (Ok tt); EOn s1 o r 1 x2], (s1, Some (Ub u))).
Proof.
  intros A B C D F G. cbn [go]. rewrite A. cbn [fst snd]. remember [x2] as l2. cbn [each]. rewrite B, C, D. subst l2. cbn [go]. rewrite F. cbn [ends after logged fst snd app]. change (each accepts body dbody _ o r 1 [x2] s1) with (each accepts body dbody (go E U accepts body dbody (S (S n))) o r 1 [x2] s1). rewrite G. reflexivity.
Qed.
Lemma chain_end accepts body dbody run o r i k s t u : w_type (s_w s) r = Some t -> the_mixin accepts o i k s = Ub u -> each accepts body dbody run o r 1 [ExecImpl i k] s = ([EOn s o r 1 (ExecImpl i k)], (s, Some (Ub u))).
Proof. intros A B. cbn [each]. rewrite A, B. reflexivity. Qed.
Definition aloneb (objs : list nat) (e : entry) : bool :=
  match e with ESend _ o _ => checkb e && existsb (Nat.eqb o) objs | ECall _ _ _ | ENext _ _ _ _ | ENoThis _ => false | _ => true end.
Lemma aloneb_ok objs e : aloneb objs e = true -> leaves_alone E objs e.
Proof.
  intros H. destruct e; cbn [aloneb leaves_alone checkb] in *; auto; try discriminate. apply andb_true_iff in H. destruct H as [H1 H2]. split; [|destruct (recb s o) as [[q t]|] eqn:Hr; [|discriminate]; exists q, t; split; [now apply recb_type|left; now apply registeredb_ok]]. apply existsb_exists in H2. destruct H2 as (q & Hq & H2). apply Nat.eqb_eq in H2. now subst.
Qed.
End Check.
(** Object 1 has the mixins 0 1 5, object 2 is a copy (see C83). The preferred function for feature 0 is that of mixin 5. Called for object 1, it works with its mixin,
    calls the next bidder, which sends the same message to object 2, and at last removes its own mixin from its object. The function of mixin 1 removes mixin 5.
    For object 2 they work with their mixins only. The default payload of feature 5 removes mixin 0 from the object and sends it a multicast message. *)
Definition re_self (j : nat) : prog := PSelf j (fun _ _ => PRet).
Definition re_body (k : nat) (m : mptr) (p : addr) (s : st) : prog :=
  let remove := PCall (OMutate false true 1 [MRemove 5]) (fun _ _ => PRet) in
  match k with
  | 14 => if addr_eqb p (0, 72%N) then PSelf 14 (fun _ _ => PNext NSet 0 (fun _ _ => remove)) else re_self 14
  | 12 => if addr_eqb p (1, 8%N) then remove else re_self 12
  | 10 => PSelf 10 (fun _ _ => PSend false 2 0 (fun _ _ => PRet))
  | _ => PRet
  end.
Definition re_default (k o : nat) (s : st) : prog := PCall (OMutate false true o [MRemove 0]) (fun _ _ => PSend true o 0 (fun _ _ => PRet)).
Definition re_go (n : nat) (P : prog) : out := go om_env (ob_user []) om_accepts re_body re_default n None P (om_st []).
Inductive brief := BCall (op : oop) (r : res unit) | BSelf (m : mptr) (p : addr) (j : nat) | BSend (o : nat) (f : fptr) | BNext (m : mptr) | BOn (o c : nat) (x : exec) | BNone.
Definition brief_of (e : entry) : brief :=
  match e with ECall _ op r => BCall op r | ESelf _ m p j _ => BSelf m p j | ESend _ o f => BSend o f | ENext _ m _ _ => BNext m | EOn _ o _ c x => BOn o c x | ENoThis _ => BNone end.
Definition re_program : prog := PSend false 1 0 (fun _ _ => PSend false 2 5 (fun _ _ => PRet)).
Definition re_log : list brief :=
  [BSend 1 0; BOn 1 0 (ExecImpl 2 14); BSelf 5 (0, 72%N) 14; BNext 5; BOn 1 0 (ExecImpl 0 10); BSelf 0 (0, 56%N) 10; BSend 2 0; BOn 2 0 (ExecImpl 2 14); BSelf 5 (2, 72%N) 14;
   BCall (OMutate false true 1 [MRemove 5]) (Ok tt); BSend 2 5; BOn 2 0 (ExecDefault 77); BCall (OMutate false true 2 [MRemove 0]) (Ok tt); BSend 2 0;
   BOn 2 0 (ExecImpl 0 12); BSelf 1 (3, 8%N) 12; BOn 2 1 (ExecImpl 1 14); BSelf 5 (5, 40%N) 14].
Lemma some_mixins s r ms : option_map t_mixins (w_type (s_w s) r) = Some ms -> exists t, w_type (s_w s) r = Some t.
Proof. destruct (w_type (s_w s) r) as [t|]; [eauto|discriminate]. Qed.
Lemma run_of E U op s r : snd (op_run E U op s) = r -> op_run E U op s = (fst (op_run E U op s), r).
Proof. intros <-. apply surjective_pairing. Qed.
Lemma out_of (x : out) res : snd (snd x) = res -> x = (fst x, (fst (snd x), res)).
Proof. intros <-. destruct x as [l [s r]]. reflexivity. Qed.
Example C87_example :
  aligned_mixins om_env /\ payloads_fit om_env om_accepts /\ listed_once om_env /\ kept_history om_env (ob_user []) (om_trace []) (om_st []) /\
  re_go 20 re_program = (fst (re_go 20 re_program), (fst (snd (re_go 20 re_program)), Some (Ok tt))) /\
  map brief_of (fst (re_go 20 re_program)) = re_log /\ Forall (respects om_env) (fst (re_go 20 re_program)) /\
  map fst (om_views (fst (snd (re_go 20 re_program)))) = [0; 1] /\
  (* with too few steps it is not done, and fine so far *)
  snd (snd (re_go 4 re_program)) = None /\ length (fst (re_go 4 re_program)) = 6 /\ Forall (respects om_env) (fst (re_go 4 re_program)).
Proof.
  assert (K : kept_history om_env (ob_user []) (om_trace []) (om_st [])) by (apply om_kept; vm_compute; reflexivity).
  split; [exact om_aligned|]. split; [exact om_fit|]. split; [exact om_once|]. split; [exact K|]. split; [apply out_of; vm_compute; reflexivity|]. split; [vm_compute; reflexivity|].
  split; [apply (checked_respects om_env (ob_user []) om_aligned om_accepts re_body re_default 20 None re_program _ _ om_fit om_once K); vm_compute; reflexivity|].
  split; [vm_compute; reflexivity|]. split; [vm_compute; reflexivity|]. split; [vm_compute; reflexivity|].
  apply (checked_respects om_env (ob_user []) om_aligned om_accepts re_body re_default 4 None re_program _ _ om_fit om_once K); vm_compute; reflexivity.
Qed.
(** A multicast message to object 2, whose functions leave it alone *)
Example C87_alone_example :
  map brief_of (fst (re_go 20 (PSend true 2 0 (fun _ _ => PRet)))) = [BSend 2 0; BOn 2 0 (ExecImpl 1 12); BSelf 1 (3, 8%N) 12; BOn 2 1 (ExecImpl 2 14); BSelf 5 (2, 72%N) 14] /\
  Forall (leaves_alone om_env [2]) (fst (re_go 20 (PSend true 2 0 (fun _ _ => PRet)))).
Proof.
  split; [vm_compute; reflexivity|]. apply Forall_forall. intros e He. apply (aloneb_ok om_env [2] e). revert e He. apply forallb_forall. vm_compute. reflexivity.
Qed.
(** Mixin 1 is external, mixin 0 is not; object 1 is mutated and keeps both. *)
Example C87_external_example : let op := OMutate false true 1 [MRemove 5] in
  external (e_mixin om_env 1) = true /\ external (e_mixin om_env 0) = false /\ fair om_env (om_st []) op /\ mutates op = Some (1, false) /\
  op_run om_env (ob_user []) op (om_st []) = (fst (op_run om_env (ob_user []) op (om_st [])), Ok tt) /\ holds (om_st []) 1 1 1 (1, 8%N) 3%Z /\
  holds (fst (op_run om_env (ob_user []) op (om_st []))) 1 1 1 (1, 8%N) 3%Z /\
  ob_values (fst (op_run om_env (ob_user []) op (om_st []))) 1 = [(0, (4, 40%N), 2%Z); (1, (1, 8%N), 3%Z)].
Proof.
  cbv zeta. split; [reflexivity|]. split; [reflexivity|]. split; [apply (ofair om_env (ob_user []) om_aligned om_ops); vm_compute; reflexivity|]. split; [reflexivity|]. split; [apply run_of; vm_compute; reflexivity|].
  split; [apply (om_holds _ 1 1 (TReg 0) [0; 1; 5] 0); vm_compute; reflexivity|]. split; [apply (om_holds _ 1 1 (TReg 1) [0; 1] 0); vm_compute; reflexivity|]. vm_compute. reflexivity.
Qed.
(** Whatever the program does, contracts or not: if the outcome is not undefined then every function was called while its type was there, with a mixin
    that was there and of its kind (C87_example has such a run, C87_chain_undefined the other kind). *)
Theorem C87_checked : forall E U accepts body dbody n self P s log s' res, go E U accepts body dbody n self P s = (log, (s', res)) -> (forall r, res = Some r -> ~ is_ub r) ->
  Forall (callable accepts) log.
Proof. intros E U accepts body dbody n self P s log s' res G H. pose proof (fine_go E U accepts body dbody n self P s) as K. rewrite G in K. exact (K H). Qed.
Print Assumptions C87_checked.
(** danger.md:40: a function of a multicast message that mutates the object. It does nothing else, with its mixin or with another, and the mutation succeeds; but it was not
    the last: the message goes on, and that is undefined. All contracts are kept but that the object still has its type. *)
Theorem C87_chain_undefined : exists E U accepts body dbody n tr s P s' log u, aligned_mixins E /\ payloads_fit E accepts /\ listed_once E /\ kept_history E U tr s /\
  go E U accepts body dbody n None P s = (log, (s', Some (Ub u))) /\
  exists o f r x y op s1, log = [ESend s o f; EOn s o r 0 x; ECall s op (Ok tt); EOn s1 o r 1 y] /\ respects E (ESend s o f) /\ respects E (ECall s op (Ok tt)).
Proof.
  assert (K : kept_history om_env (ob_user []) (om_trace []) (om_st [])) by (apply om_kept; vm_compute; reflexivity).
  set (op := OMutate false true 1 [MRemove 5]). assert (R : op_run om_env (ob_user []) op (om_st []) = (fst (op_run om_env (ob_user []) op (om_st [])), Ok tt)) by (apply run_of; vm_compute; reflexivity).
  assert (T1 : exists t, w_type (s_w (fst (op_run om_env (ob_user []) op (om_st [])))) (TReg 0) = Some t) by (apply (some_mixins _ _ [0; 1; 5]); vm_compute; reflexivity).
  assert (M1 : the_mixin om_accepts 1 2 14 (fst (op_run om_env (ob_user []) op (om_st []))) = Ub UbNull) by (vm_compute; reflexivity).
  assert (T0 : exists t, w_type (s_w (om_st [])) (TReg 0) = Some t) by (apply (some_mixins _ _ [0; 1; 5]); vm_compute; reflexivity).
  assert (M0 : the_mixin om_accepts 1 1 12 (om_st []) = Ok (1, (1, 8%N))) by (vm_compute; reflexivity).
  assert (S0 : sending om_env true 1 0 (om_st []) = Ok (TReg 0, [ExecImpl 1 12; ExecImpl 2 14])) by (vm_compute; reflexivity).
  assert (Rs : respects om_env (ESend (om_st []) 1 0)). { destruct (om_type (om_st []) 1 (TReg 0) [0; 1; 5] 0) as (t & HT & _ & Hd); [vm_compute; reflexivity|]. exists (TReg 0), t. split; [exact HT|]. left. rewrite Hd. vm_compute. reflexivity. }
  assert (F : fair om_env (om_st []) op) by (apply (ofair om_env (ob_user []) om_aligned om_ops); vm_compute; reflexivity).
  generalize dependent (fst (op_run om_env (ob_user []) op (om_st []))). intros s1 R (t1 & T1) M1. destruct T0 as (t0 & T0).
  exists om_env, (ob_user []), om_accepts, re_body, re_default, 3, (om_trace []), (om_st []), (PSend true 1 0 (fun _ _ => PRet)), s1. do 2 eexists.
  split; [exact om_aligned|]. split; [exact om_fit|]. split; [exact om_once|]. split; [exact K|].
  split; [exact (chain om_env (ob_user []) om_accepts re_body re_default 0 None 1 0 (fun _ _ => PRet) (om_st []) (TReg 0) 1 12 (ExecImpl 2 14) (1, (1, 8%N)) op s1 t0 UbNull S0 T0 M0 eq_refl R (chain_end om_accepts re_body re_default _ 1 (TReg 0) 2 14 s1 t1 UbNull T1 M1))|].
  exists 1, 0, (TReg 0), (ExecImpl 1 12), (ExecImpl 2 14), op, s1. split; [reflexivity|]. split; [exact Rs|]. split; [exact F|]. intros d Hd. discriminate Hd.
Qed.
Print Assumptions C87_chain_undefined.
