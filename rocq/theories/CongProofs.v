(** Calls do the same in the same world. *)
From Coq Require Import List Arith ZArith NArith Lia Bool.
From Verif Require Import Base Sv Info Registry TypeMut Rules TypeBuild TypeQuery Domain ElemProofs TypesProofs SpecDom DomTheorems Conc SpecConc.
Import ListNotations.

Section Cong.
Variable E : env.

Lemma same_refl w : same_world w w.
Proof. repeat split. Qed.
Lemma same_sym w w' : same_world w w' -> same_world w' w.
Proof. intros (A & B & C & D & F & G). repeat split; auto. Qed.
Lemma same_trans w w' w'' : same_world w w' -> same_world w' w'' -> same_world w w''.
Proof. intros (A & B & C & D & F & G) (A' & B' & C' & D' & F' & G'). repeat split; congruence. Qed.

(** Two results that are the same *)
Definition same_res {A} (x y : world * A) : Prop := same_world (fst x) (fst y) /\ snd x = snd y.

Lemma upd_ext {A} (f g : nat -> A) k v v' : (forall x, f x = g x) -> v = v' -> forall x, upd f k v x = upd g k v' x.
Proof. intros H -> x. unfold upd. destruct (x =? k); auto. Qed.

Lemma same_set_dom w w' d s : same_world w w' -> same_world (set_dom w d s) (set_dom w' d s).
Proof.
  intros (A & B & C & D & F & G). unfold set_dom, same_world. cbn. repeat split; try assumption. now apply upd_ext.
Qed.

Ltac sameq H := destruct H as (HA & HB & HC & HD & HF & HG).
Ltac fin := match goal with H : same_world _ _ |- _ => sameq H | _ => idtac end;
   unfold same_world; cbn; repeat split; auto; try congruence; try (apply upd_ext; auto; congruence).

Lemma same_register_feature w w' d f : same_world w w' -> same_res (register_feature E w d f) (register_feature E w' d f).
Proof.
  intros H. pose proof H as H0. sameq H0. unfold register_feature. rewrite <- (HD d), <- HC.
  destruct (basic_register _ _ _ _ _) as [[sp id]|e|u]; (split; [|reflexivity]); fin.
Qed.
Lemma same_unregister_feature w w' d f : same_world w w' -> same_res (unregister_feature w d f) (unregister_feature w' d f).
Proof.
  intros H. pose proof H as H0. sameq H0. unfold unregister_feature. rewrite <- (HD d), <- HC.
  destruct (basic_unregister _ _ _) as [sp|e|u]; (split; [|reflexivity]); fin.
Qed.
Lemma same_register_features d fs : forall w w', same_world w w' -> same_res (register_features_of E w d fs) (register_features_of E w' d fs).
Proof.
  induction fs as [|f fs IH]; intros w w' H; [split; [exact H|reflexivity]|]. pose proof H as H0. sameq H0.
  cbn [register_features_of]. rewrite <- HC, <- (HD d). destruct (w_fid w (ff_info f)) as [i|].
  - destruct (nth_error _ i) as [[p|]|]; [destruct (p =? ff_info f)|..]; try (split; [exact H|reflexivity]). now apply IH.
  - destruct (same_register_feature w w' d (ff_info f) H) as [S1 S2].
    destruct (register_feature E w d (ff_info f)) as [w1 x], (register_feature E w' d (ff_info f)) as [w1' x']. cbn [fst snd] in *. subst x'.
    destruct x as [y|e|u]; [now apply IH|split; auto..].
Qed.
Lemma same_register_mixin w w' d m : same_world w w' -> same_res (register_mixin E w d m) (register_mixin E w' d m).
Proof.
  intros H. pose proof H as H0. sameq H0. unfold register_mixin. rewrite <- HB.
  destruct (match w_mdom w m with Some d' => negb (d' =? d) | None => false end); [split; [exact H|reflexivity]|].
  destruct (same_register_features d (m_features (e_mixin E m)) w w' H) as [S1 S2].
  destruct (register_features_of E w d _) as [w1 x], (register_features_of E w' d _) as [w1' x']. cbn [fst snd] in *. subst x'.
  destruct x as [y|e|u]; [|split; auto..]. clear H HA HB HC HD HF HG. pose proof S1 as H0. sameq H0.
  rewrite <- (HD d), <- HA. destruct (basic_register _ _ _ _ _) as [[sp id]|e|u]; (split; [|reflexivity]); fin.
Qed.

Lemma ref_has_id_same w w' id r : same_world w w' -> ref_has_id w' id r = ref_has_id w id r.
Proof. intros H. sameq H. unfold ref_has_id. now rewrite HF. Qed.

Lemma same_purge w w' d m : same_world w w' ->
  match purge_types w d m, purge_types w' d m with Ok a, Ok b => same_world a b | Throw a, Throw b => a = b | Ub a, Ub b => a = b | _, _ => False end.
Proof.
  intros H. pose proof H as H0. sameq H0. unfold purge_types, dangling, ref_nobj, ref_has_id. rewrite <- (HD d), <- HF, <- HA.
  destruct (existsb _ (d_queries _)); [reflexivity|]. destruct (existsb _ (filter _ _)); [reflexivity|]. fin.
Qed.
Lemma same_unregister_elem w w' d m : same_world w w' -> same_res (unregister_mixin_elem w d m) (unregister_mixin_elem w' d m).
Proof.
  intros H. pose proof H as H0. sameq H0. unfold unregister_mixin_elem. rewrite <- (HD d), <- HA.
  destruct (basic_unregister _ _ _) as [sp|e|u]; (split; [|reflexivity]); fin.
Qed.
Lemma same_unregister_mixin w w' d m : same_world w w' -> same_res (unregister_mixin w d m) (unregister_mixin w' d m).
Proof.
  intros H. unfold unregister_mixin. pose proof (same_purge w w' d m H) as P.
  destruct (purge_types w d m), (purge_types w' d m); try contradiction; [now apply same_unregister_elem|split; [exact H|now rewrite P]..].
Qed.
Lemma same_add_rule w w' d r : same_world w w' -> same_res (add_rule E w d r) (add_rule E w' d r).
Proof.
  intros H. unfold add_rule. destruct (r_apply _); [|split; auto]. pose proof H as H0. sameq H0. rewrite <- (HD d).
  destruct (rules_incr _ _ _) as [l b]. split; [now apply same_set_dom|reflexivity].
Qed.
Lemma same_remove_rule w w' d r : same_world w w' -> same_res (remove_rule E w d r) (remove_rule E w' d r).
Proof.
  intros H. unfold remove_rule. pose proof H as H0. sameq H0. rewrite <- (HD d).
  destruct (rules_decr _ _ _) as [[l b]|e|u]; (split; [|reflexivity]); [now apply same_set_dom|exact H..].
Qed.
Lemma same_register_tc w w' d c : same_world w w' -> same_res (register_type_class E w d c) (register_type_class E w' d c).
Proof.
  intros H. unfold register_type_class. pose proof H as H0. sameq H0. rewrite <- (HD d).
  destruct (register_tc _ _ _) as [sp|e|u]; (split; [|reflexivity]); [now apply same_set_dom|exact H..].
Qed.
Lemma same_unregister_tc w w' d c : same_world w w' -> same_res (unregister_type_class w d c) (unregister_type_class w' d c).
Proof.
  intros H. unfold unregister_type_class. pose proof H as H0. sameq H0. rewrite <- (HD d). split; [now apply same_set_dom|reflexivity].
Qed.
Lemma same_gc w w' d : same_world w w' -> same_res (gc w d) (gc w' d).
Proof.
  intros H. pose proof H as H0. sameq H0. unfold gc, dangling, ref_nobj. rewrite <- (HD d), <- HF.
  destruct (existsb _ _); [split; auto|]. split; [|reflexivity]. fin.
Qed.
Lemma same_incr w w' r : same_world w w' -> same_res (incr_nobj w r) (incr_nobj w' r).
Proof.
  intros H. pose proof H as H0. sameq H0. unfold incr_nobj. rewrite <- HF. destruct (w_type w r); (split; [|reflexivity]); [|exact H].
  unfold with_type. rewrite <- HF. fin.
Qed.
Lemma same_decr w w' r : same_world w w' -> same_res (decr_nobj w r) (decr_nobj w' r).
Proof.
  intros H. pose proof H as H0. sameq H0. unfold decr_nobj. rewrite <- HF. destruct (w_type w r) as [t|]; [|split; auto]. destruct (t_nobj t); (split; [|reflexivity]); [exact H|].
  unfold with_type. rewrite <- HF. fin.
Qed.

Lemma same_lookup w w' d q : same_world w w' -> lookup_type E w' d q = lookup_type E w d q.
Proof.
  intros H. sameq H. unfold lookup_type, view, get_mixin_by_name. rewrite <- (HD d), <- HA.
  destruct (find_query _ _); [reflexivity|]. destruct (apply_rules _ _ _ _) as [[oq ms]|e|u]; try reflexivity.
  cbn [bind fst snd]. destruct ms; [reflexivity|]. do 2 f_equal.
  induction (d_types (w_dom w d)) as [|r l IH]; [reflexivity|]. cbn [find_type]. rewrite <- HF. destruct (w_type w r); [destruct (span_equiv _ _)|]; auto.
Qed.
Lemma same_find_type w w' ms ts : same_world w w' -> find_type w' ms ts = find_type w ms ts.
Proof. intros H. sameq H. apply find_type_ext. intros r _. now rewrite HF. Qed.
Lemma same_store w w' d q t : same_world w w' -> same_world (store_found w d q t) (store_found w' d q t).
Proof. intros H. unfold store_found. pose proof H as H0. sameq H0. rewrite <- (HD d). now apply same_set_dom. Qed.
Lemma same_insert w w' d q t : same_world w w' -> same_res (insert_type w d q t) (insert_type w' d q t).
Proof.
  intros H. unfold insert_type. pose proof H as H0. sameq H0. rewrite <- (HD d), (same_find_type w w' _ _ H), <- HG.
  destruct (find_type _ _ _); (split; [|reflexivity]); [now apply same_store|]. cbn [fst]. rewrite <- HF. fin.
Qed.
Lemma same_get_type_mut a w w' d dm q : same_world w w' -> same_res (get_type_mut E a w d dm q) (get_type_mut E a w' d dm q).
Proof.
  intros H. unfold get_type_mut. destruct (negb (dm =? d)); [split; auto|]. rewrite (same_lookup w w' d q H).
  destruct (lookup_type E w d q) as [[t|oq ms [t|]]|e|u]; try (split; [exact H|reflexivity]).
  - split; [now apply same_store|reflexivity].
  - pose proof H as H0. sameq H0. rewrite <- HA, <- HB, <- HC. destruct (build_type _ _ _ _ _ _ _) as [t|e|u]; try (split; [exact H|reflexivity]).
    destruct (same_insert w w' d oq t H) as [S1 S2]. destruct (insert_type w d oq t), (insert_type w' d oq t). cbn [fst snd] in *. split; [exact S1|cbn; now rewrite S2].
Qed.
Lemma same_get_type a w w' d q : same_world w w' -> same_res (get_type E a w d q) (get_type E a w' d q).
Proof. intros H. rewrite <- !get_type_mut_same. now apply same_get_type_mut. Qed.

Lemma same_forget {A} (x y : world * res A) : same_res x y -> same_res (forget x) (forget y).
Proof. intros [S1 S2]. split; [exact S1|]. unfold forget. cbn. now rewrite S2. Qed.
Lemma same_retty (x y : world * res tref) : same_res x y -> same_res (retty x) (retty y).
Proof. intros [S1 S2]. split; [exact S1|]. unfold retty. cbn. now rewrite S2. Qed.

Lemma same_dstep w w' o : same_world w w' -> same_res (dstep E w o) (dstep E w' o).
Proof.
  intros H. destruct o; cbn [dstep]; try apply same_forget; try apply same_retty.
  - now apply same_register_feature.
  - now apply same_unregister_feature.
  - now apply same_register_mixin.
  - now apply same_unregister_mixin.
  - now apply same_register_tc.
  - now apply same_unregister_tc.
  - now apply same_add_rule.
  - now apply same_remove_rule.
  - now apply same_get_type.
  - now apply same_get_type_mut.
  - now apply same_gc.
  - now apply same_incr.
  - now apply same_decr.
Qed.

Lemma same_has_type w w' d r t : same_world w w' -> has_type w d r t -> has_type w' d r t.
Proof. intros H [A B]. sameq H. split; [now rewrite <- HF|now rewrite <- HD]. Qed.
End Cong.
