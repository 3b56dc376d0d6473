(** What the definitions of mixins say *)
From Coq Require Import List Arith ZArith NArith Bool.
From Verif Require Import Base Sv Info TypeBuild Domain Define.
Import ListNotations.

(** The definitions that have begun and not ended, with their domains *)
Definition defs_step (cur : list (dptr * mixin_data)) (o : xop) : list (dptr * mixin_data) :=
  match o with
  | XDefine d md => (d, md) :: cur
  | XEnd md => filter (fun x => negb (md_info (snd x) =? md_info md)) cur
  | XDom _ => cur
  end.
Definition open_defs (tr : list xop) : list (dptr * mixin_data) := fold_left defs_step tr [].

(** How many times the open definitions of a domain ask for a rule *)
Definition asked (l : list (dptr * mixin_data)) (d : dptr) (r : rptr) : nat :=
  list_sum (map (fun x => if fst x =? d then count_occ Nat.eq_dec (md_rules (snd x)) r else 0) l).

(** The canonicalize rule is there once from the start, if the settings of the domain say so. *)
Definition canon_count (E : env) (d : dptr) (r : rptr) : nat := if s_canonicalize (e_settings E d) && (r =? e_canon E d) then 1 else 0.

(** The contract of programs that define mixins: each info of a definition belongs to one mixin_info_data, with its rules ([data]; None for
    other infos). Such an info is registered and unregistered by its definition only, and rules are added and removed by definitions only. *)
Definition tidy (data : mptr -> option (list rptr)) (tr : list xop) (w : world) (o : xop) : Prop :=
  match o with
  | XDefine _ md | XEnd md => data (md_info md) = Some (md_rules md)
  | XDom (DRegMixin _ m) | XDom (DUnregMixin _ m) => data m = None
  | XDom (DAddRule _ _) | XDom (DRemRule _ _) => False
  | XDom _ => True
  end.

(** No object is alive whose type has the mixin. *)
Definition no_objects_with (w : world) (m : mptr) : Prop :=
  forall r t, w_type w r = Some t -> In m (t_mixins t) -> t_nobj t = 0.

(** ** The builder *)

(** The last name given *)
Fixpoint last_name (nm : list N) (l : list bcall) : list N :=
  match l with
  | [] => nm
  | BName s :: r | BStoreName s :: r => last_name s r
  | _ :: r => last_name nm r
  end.
(** The features in the order of the calls. Of two perks the first counts, and zero if there is none. *)
Definition first_of (a b : option Z) : Z := match a, b with Some x, _ => x | None, Some y => y | None, None => 0%Z end.
Definition features_told (l : list bcall) : list ffm :=
  flat_map (fun c => match c with
    | BImplements f pl pa pb => [{| ff_info := f; ff_payload := pl; ff_bid := first_of (pk_bid pa) (pk_bid pb); ff_prio := first_of (pk_prio pa) (pk_prio pb) |}]
    | _ => [] end) l.
(** Is the mixin a dependency? The last call that says so counts; adding a rule says yes. *)
Definition dep_told (c : bcall) : option bool :=
  match c with
  | BDependency b => Some b
  | BRule _ | BRuleNamed _ _ _ | BRuleAuto _ _ => Some true
  | BOnMutation _ true _ _ => Some true
  | _ => None
  end.
Definition last_dep (l : list bcall) : bool :=
  fold_left (fun b c => match dep_told c with Some x => x | None => b end) l false.
Definition last_allocator (l : list bcall) : option nat :=
  fold_left (fun b c => match c with BAllocator a => Some a | _ => b end) l None.
(** The rules in the order of the calls; [nm] is the name at that time and [k] the number of rules before *)
Fixpoint rules_told (nm : list N) (k : nat) (l : list bcall) : list seen_rule :=
  match l with
  | [] => []
  | BName s :: r | BStoreName s :: r => rules_told s k r
  | BRule x :: r => SGiven x :: rules_told nm (S k) r
  | BRuleNamed n a p :: r => SOwn n a (first_of (pk_prio p) None) :: rules_told nm (S k) r
  | BRuleAuto a p :: r => SOwn (nm ++ rule_infix ++ to_string k) a (first_of (pk_prio p) None) :: rules_told nm (S k) r
  | BOnMutation n _ a p :: r => SOwn (nm ++ [32%N] ++ n ++ [60%N] ++ to_string k ++ [62%N]) a (first_of (pk_prio p) None) :: rules_told nm (S k) r
  | _ :: r => rules_told nm k r
  end.
(** All rules get their names from the builder. *)
Definition names_generated (l : list bcall) : Prop :=
  forall c, In c l -> match c with BRule _ | BRuleNamed _ _ _ => False | _ => True end.
Definition rule_name_of (r : seen_rule) : option (list N) := match r with SGiven _ => None | SOwn n _ _ => Some n end.
(** All rules get names of the first kind, and the mixin is not renamed. *)
Definition auto_named (l : list bcall) : Prop :=
  forall c, In c l -> match c with BName _ | BStoreName _ | BRule _ | BRuleNamed _ _ _ | BOnMutation _ _ _ _ => False | _ => True end.
