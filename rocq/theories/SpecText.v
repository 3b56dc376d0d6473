(** Specification: what the text of an exception must say. *)
From Coq Require Import List Arith ZArith NArith Bool String Ascii.
From Verif Require Import Base Sv Info Registry Rules TypeBuild Domain Life SpecLife.
Import ListNotations.
Open Scope list_scope.

Definition begins (t p : list N) : Prop := exists r, t = p ++ r.
Definition mentions (t p : list N) : Prop := exists a b, t = a ++ p ++ b.
Definition text (s : string) : list N := map N_of_ascii (list_ascii_of_string s).
Definition quoted (s : sv) : list N := text "'" ++ sv_bytes s ++ text "'".

Section Said.
Variable E : env.
Variable dname : dptr -> list N.
Definition shown (d : dptr) : list N := if sv_empty {| sv_begin := 0; sv_bytes := dname d |} then text "unnamed domain" else dname d.
Definition shown_mixin (m : mptr) : list N := quoted (m_name (e_mixin E m)).
Definition shown_feature (f : fptr) : list N := quoted (f_name (e_feature E f)).
Fixpoint joined (l : list (list N)) : list N := match l with [] => [] | [x] => x | x :: r => x ++ text ", " ++ joined r end.
Definition shown_list (l : list mptr) : list N := text "{" ++ joined (map shown_mixin l) ++ text "}".
Definition shown_owner (w : world) (m : mptr) : list N := match w_mdom w m with Some d => shown d | None => text "<null>" end.

(** For the type of [q]: what the text of [e] says is wrong in domain [d], and it is wrong. [l]: the mixins that the rules made of [q] *)
Definition type_blamed (w : world) (d : dptr) (q : list mptr) (e : exn) (t : list N) : Prop :=
  match e with
  | ERuleUser z => exists r n f l, In (r, n) (d_rules (w_dom w d)) /\ r_apply (e_rule E r) = Some f /\ f (view E w d) l = RuleErr z /\
      mentions t (text "mutation rule " ++ quoted (r_name (e_rule E r)) ++ text " to " ++ shown_list l)
  | EUnregisteredMixin => exists m l, In m l /\ w_mid w m = None /\ (d_rules (w_dom w d) = [] -> In m q) /\
      mentions t (text "creating type " ++ shown_list l ++ text ": " ++ shown_mixin m ++ text " unregistered")
  | EDuplicateMixin => exists m l, 2 <= count_occ Nat.eq_dec l m /\ (d_rules (w_dom w d) = [] -> In m q) /\
      mentions t (text "creating type " ++ shown_list l ++ text ": " ++ shown_mixin m ++ text " duplicate")
  | EForeignMixin => exists m l, In m l /\ w_mid w m <> None /\ w_mdom w m <> Some d /\ (d_rules (w_dom w d) = [] -> In m q) /\
      mentions t (text "foreign mixin " ++ shown_mixin m) /\ mentions t (shown_owner w m ++ match w_mdom w m with Some _ => text "'" | None => [] end ++ text " while trying to create type " ++ shown_list l)
  | EFeatureClash => exists l f fa fb a b, In a l /\ In fa (m_features (e_mixin E a)) /\ In b l /\ In fb (m_features (e_mixin E b)) /\
      ff_bid fa = ff_bid fb /\ ff_prio fa = ff_prio fb /\ w_fid w (ff_info fa) = w_fid w f /\ w_fid w (ff_info fb) = w_fid w f /\ w_fid w f <> None /\ f_allow_clashes (e_feature E f) = false /\
      (a = b -> NoDup (m_features (e_mixin E a)) -> fa <> fb) /\
      mentions t (text "feature clash in " ++ shown_list l ++ text " on " ++ shown_feature (ff_info fa) ++ text " between " ++ shown_mixin a ++ text " and " ++ shown_mixin b)
  | _ => True
  end.
(** The text of [e] names what the call was wrong about. Texts about empty names name nothing. *)
Definition blamed (w : world) (o : dop) (e : exn) (t : list N) : Prop :=
  match o with
  | DRegFeature d f => e <> EEmptyName -> mentions t (text "feature " ++ shown_feature f) \/ mentions t (text "name " ++ shown_feature f)
  | DUnregFeature d f => mentions t (text "feature " ++ shown_feature f)
  | DRegMixin d m =>
    match e with
    | EInfoHasDomain => exists d', w_mdom w m = Some d' /\ mentions t (text "mixin " ++ shown_mixin m ++ text " which has a domain = " ++ shown d')
    | EIdRegistered => mentions t (text "mixin " ++ shown_mixin m)
    | EDuplicateName => mentions t (text "mixin with duplicate name " ++ shown_mixin m) \/
        exists f, In f (map ff_info (m_features (e_mixin E m))) /\ w_fid w f = None /\ mentions t (text "feature with duplicate name " ++ shown_feature f)
    | _ => True
    end
  | DUnregMixin d m => mentions t (shown_mixin m) /\ mentions t (text "domain = " ++ shown_owner w m)
  | DRegTc d c => e <> EEmptyName -> mentions t (quoted (c_name (e_tc E c)))
  | DAddRule d r => mentions t (quoted (r_name (e_rule E r)))
  | DGetType d q _ => type_blamed w d q e t
  | DGetTypeMut d dm q _ =>
    match e with
    | EForeignMutation => (forall m, In m q -> mentions t (shown_mixin m)) /\ mentions t (text "of domain '" ++ shown dm)
    | _ => type_blamed w d q e t
    end
  | _ => True
  end.
End Said.

(** Domains end after all that was registered in them is unregistered, and mutations are used while their domain exists. *)
Definition alive_mutation (l : lworld) (o : lop) : Prop :=
  match o with LCall (DGetTypeMut _ dm _ _) => l_dead l dm = false | _ => True end.
