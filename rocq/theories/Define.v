(** Definition of mixins: the builder of mixin_info_data and its registration
    (code/dynamix/mixin_info_data.hpp, mixin_info_data.cpp, mixin_info_data_literals.hpp, define_mixin.hpp) *)
From Coq Require Import List Arith ZArith NArith Lia Bool.
From Verif Require Import Base Sv Info TypeBuild Domain.
Import ListNotations.

(** ** Registration *)

(** mixin_info_data.hpp:25-54, the part used by the domain: the info and the rules, in the order of their addition *)
Record mixin_data := { md_info : mptr; md_rules : list rptr }.

Section Reg.
Variable E : env.

(** mixin_info_data.cpp:10-12 *)
Fixpoint add_rules (w : world) (d : dptr) (rs : list rptr) : world * res unit :=
  match rs with
  | [] => (w, Ok tt)
  | r :: l =>
    match add_rule E w d r with
    | (w1, Ok _) => add_rules w1 d l
    | (w1, x) => (w1, x)
    end
  end.
(** mixin_info_data.cpp:9-14 register_in: the rules first, then the mixin. Nothing is undone when something throws. *)
Definition register_in (w : world) (d : dptr) (md : mixin_data) : world * res unit :=
  match add_rules w d (md_rules md) with
  | (w1, Ok _) => register_mixin E w1 d (md_info md)
  | (w1, x) => (w1, x)
  end.

(** How a function declared noexcept ends: an exception that would leave it ends the program. *)
Inductive ended := EReturns | ETerminates | EUb (u : ubk).

(** mixin_info_data.cpp:18-20 *)
Fixpoint remove_rules (w : world) (d : dptr) (rs : list rptr) : world * ended :=
  match rs with
  | [] => (w, EReturns)
  | r :: l =>
    match remove_rule E w d r with
    | (w1, Ok _) => remove_rules w1 d l
    | (w1, Throw _) => (w1, ETerminates)
    | (w1, Ub u) => (w1, EUb u)
    end
  end.
(** mixin_info_data.cpp:16-21 unregister_from, noexcept (mixin_info_data.hpp:53) *)
Definition unregister_from (w : world) (d : dptr) (md : mixin_data) : world * ended :=
  match unregister_mixin w d (md_info md) with
  | (w1, Ok _) => remove_rules w1 d (md_rules md)
  | (w1, Throw _) => (w1, ETerminates)
  | (w1, Ub u) => (w1, EUb u)
  end.

(** define_mixin.hpp:24-26: the constructor of the instance made by DYNAMIX_DEFINE_MIXIN is register_in; 27-32: its destructor *)
Definition end_definition (w : world) (md : mixin_data) : world * ended :=
  match w_mdom w (md_info md) with
  | Some d => unregister_from w d md
  | None => (w, EReturns)
  end.

(** Programs: definitions of mixins, their ends, and calls to the domains. *)
Inductive xop := XDefine (d : dptr) (md : mixin_data) | XEnd (md : mixin_data) | XDom (o : dop).
(** A history of a program in which definitions succeed (a failing one ends the program: it happens before main) *)
Inductive xrun (ok : list xop -> world -> xop -> Prop) : list xop -> world -> Prop :=
| xr_nil : xrun ok [] (init_world E)
| xr_define tr w d md w' : xrun ok tr w -> ok tr w (XDefine d md) -> register_in w d md = (w', Ok tt) -> xrun ok (tr ++ [XDefine d md]) w'
| xr_end tr w md w' : xrun ok tr w -> ok tr w (XEnd md) -> end_definition w md = (w', EReturns) -> xrun ok (tr ++ [XEnd md]) w'
| xr_dom tr w o w' r : xrun ok tr w -> ok tr w (XDom o) -> dstep E w o = (w', r) -> ~ is_ub r -> xrun ok (tr ++ [XDom o]) w'.
End Reg.

(** ** The builder *)

(** A view of characters: of memory that outlives everything (literals, and what the caller promises), of [stored_name], or of an
    element of [mutation_rule_info_names_storage]. The characters of a std::string may move when it is changed: views of it carry
    the number of changes that they have seen. *)
Inductive bview := VLit (s : list N) | VStored (gen : nat) | VRuleName (i : nat) (gen : nat).
(** A std::string with the number of its changes *)
Record bstring := { bs_chars : list N; bs_gen : nat }.
(** An element of mutation_rule_info_storage; the apply function is a number *)
Record brule := { br_name : bview; br_apply : nat; br_prio : Z }.
(** Pointer to a rule: of the caller, or to an element of mutation_rule_info_storage (elements of a deque do not move) *)
Inductive brule_ptr := RGiven (r : rptr) | ROwn (i : nat).

(** mixin_info_data.hpp:25-54 with the members of the info that the builder changes. [bd_features] is the vector feature_payloads and
    [bd_features_gen] the number of its reallocations; [bd_span] is what info.features and info.num_features say: the
    generation of the vector they were taken from and the length. feature_payload_storage only keeps the payloads alive. *)
Record bdata := {
  bd_name : bview;
  bd_stored : bstring;
  bd_alloc : option nat;
  bd_dep : bool;
  bd_force_external : bool;
  bd_span : option nat * nat;
  bd_features : list ffm;
  bd_features_gen : nat;
  bd_rules : list brule_ptr;
  bd_rule_store : list brule;
  bd_rule_names : list bstring
}.

(** mixin_info_data_literals.hpp:9-19 builder_perks; negation on 32 bits is modelled on Z (the caller does not negate INT32_MIN) *)
Record perks := { pk_bid : option Z; pk_prio : option Z }.
Definition no_perks : perks := {| pk_bid := None; pk_prio := None |}.
Definition neg_perks (p : perks) : perks := {| pk_bid := option_map Z.opp (pk_bid p); pk_prio := option_map Z.opp (pk_prio p) |}.
(** std::optional::value_or *)
Definition value_or {A} (o : option A) (d : A) : A := match o with Some x => x | None => d end.

(** Calls of the builder. The template functions implements_by, implements_with and implements (mixin_info_data.hpp:133-173) all
    end in implements_with_payload. *)
Inductive bcall :=
| BName (s : list N)
| BStoreName (s : list N)
| BAllocator (a : nat)
| BDependency (b : bool)
| BImplements (f : fptr) (payload : nat) (pa pb : perks)
| BRule (r : rptr)
| BRuleNamed (name : list N) (apply : nat) (p : perks)
| BRuleAuto (apply : nat) (p : perks)
| BOnMutation (rule_name : list N) (makes_dep : bool) (apply : nat) (p : perks).

(** std::to_string of an unsigned number *)
Fixpoint uint_chars (u : Decimal.uint) : list N :=
  match u with
  | Decimal.Nil => []
  | Decimal.D0 r => 48%N :: uint_chars r
  | Decimal.D1 r => 49%N :: uint_chars r
  | Decimal.D2 r => 50%N :: uint_chars r
  | Decimal.D3 r => 51%N :: uint_chars r
  | Decimal.D4 r => 52%N :: uint_chars r
  | Decimal.D5 r => 53%N :: uint_chars r
  | Decimal.D6 r => 54%N :: uint_chars r
  | Decimal.D7 r => 55%N :: uint_chars r
  | Decimal.D8 r => 56%N :: uint_chars r
  | Decimal.D9 r => 57%N :: uint_chars r
  end.
Definition to_string (n : nat) : list N := uint_chars (Nat.to_uint n).
(** The literal " rule " of mixin_info_data.hpp:194, the name being put together in 193-195 *)
Definition rule_infix : list N := [32; 114; 117; 108; 101; 32]%N.

(** What a view shows; None if what it refers to is no longer there *)
Definition string_at (d : bdata) (v : bview) : option (list N) :=
  match v with
  | VLit s => Some s
  | VStored g => if g =? bs_gen (bd_stored d) then Some (bs_chars (bd_stored d)) else None
  | VRuleName i g =>
    match nth_error (bd_rule_names d) i with
    | Some b => if g =? bs_gen b then Some (bs_chars b) else None
    | None => None
    end
  end.

Section Builder.
(** Does push_back reallocate the vector that has this size? *)
Variable grows : nat -> bool.

(** mixin_info_data.hpp:84-87 name *)
Definition b_name (d : bdata) (v : bview) : bdata := {|
  bd_name := v; bd_stored := bd_stored d; bd_alloc := bd_alloc d; bd_dep := bd_dep d; bd_force_external := bd_force_external d; bd_span := bd_span d;
  bd_features := bd_features d; bd_features_gen := bd_features_gen d; bd_rules := bd_rules d; bd_rule_store := bd_rule_store d; bd_rule_names := bd_rule_names d |}.
(** mixin_info_data.hpp:90-93 store_name *)
Definition b_store_name (d : bdata) (s : list N) : bdata :=
  let st := {| bs_chars := s; bs_gen := S (bs_gen (bd_stored d)) |} in
  b_name {| bd_name := bd_name d; bd_stored := st; bd_alloc := bd_alloc d; bd_dep := bd_dep d; bd_force_external := bd_force_external d; bd_span := bd_span d;
    bd_features := bd_features d; bd_features_gen := bd_features_gen d; bd_rules := bd_rules d; bd_rule_store := bd_rule_store d; bd_rule_names := bd_rule_names d |}
    (VStored (bs_gen st)).
(** mixin_info_data.hpp:96-109 uses_allocator *)
Definition b_allocator (d : bdata) (a : nat) : bdata := {|
  bd_name := bd_name d; bd_stored := bd_stored d; bd_alloc := Some a; bd_dep := bd_dep d; bd_force_external := bd_force_external d; bd_span := bd_span d;
  bd_features := bd_features d; bd_features_gen := bd_features_gen d; bd_rules := bd_rules d; bd_rule_store := bd_rule_store d; bd_rule_names := bd_rule_names d |}.
(** mixin_info_data.hpp:118-121 dependency *)
Definition b_dependency (d : bdata) (b : bool) : bdata := {|
  bd_name := bd_name d; bd_stored := bd_stored d; bd_alloc := bd_alloc d; bd_dep := b; bd_force_external := bd_force_external d; bd_span := bd_span d;
  bd_features := bd_features d; bd_features_gen := bd_features_gen d; bd_rules := bd_rules d; bd_rule_store := bd_rule_store d; bd_rule_names := bd_rule_names d |}.
(** mixin_info_data.hpp:124-131 implements_with_payload *)
Definition b_implements (d : bdata) (f : fptr) (payload : nat) (pa pb : perks) : bdata :=
  let bid := value_or (pk_bid pa) (value_or (pk_bid pb) 0%Z) in
  let prio := value_or (pk_prio pa) (value_or (pk_prio pb) 0%Z) in
  let fs := bd_features d ++ [{| ff_info := f; ff_payload := payload; ff_bid := bid; ff_prio := prio |}] in
  let gen := if grows (length (bd_features d)) then S (bd_features_gen d) else bd_features_gen d in
  {| bd_name := bd_name d; bd_stored := bd_stored d; bd_alloc := bd_alloc d; bd_dep := bd_dep d; bd_force_external := bd_force_external d;
     bd_span := (Some gen, length fs);
     bd_features := fs; bd_features_gen := gen; bd_rules := bd_rules d; bd_rule_store := bd_rule_store d; bd_rule_names := bd_rule_names d |}.
(** mixin_info_data.hpp:178-182 adds_mutation_rule(info) *)
Definition b_rule (d : bdata) (r : brule_ptr) : bdata := {|
  bd_name := bd_name d; bd_stored := bd_stored d; bd_alloc := bd_alloc d; bd_dep := true; bd_force_external := bd_force_external d; bd_span := bd_span d;
  bd_features := bd_features d; bd_features_gen := bd_features_gen d; bd_rules := bd_rules d ++ [r]; bd_rule_store := bd_rule_store d; bd_rule_names := bd_rule_names d |}.
(** mixin_info_data.hpp:184-189 adds_mutation_rule(name, apply) *)
Definition b_rule_named (d : bdata) (name : list N) (apply : nat) (p : perks) : bdata :=
  let st := {| bs_chars := name; bs_gen := 0 |} in
  let i := length (bd_rule_names d) in
  let k := length (bd_rule_store d) in
  b_rule {| bd_name := bd_name d; bd_stored := bd_stored d; bd_alloc := bd_alloc d; bd_dep := bd_dep d; bd_force_external := bd_force_external d; bd_span := bd_span d;
    bd_features := bd_features d; bd_features_gen := bd_features_gen d; bd_rules := bd_rules d;
    bd_rule_store := bd_rule_store d ++ [{| br_name := VRuleName i 0; br_apply := apply; br_prio := value_or (pk_prio p) 0%Z |}];
    bd_rule_names := bd_rule_names d ++ [st] |} (ROwn k).
(** mixin_info_data.hpp:191-197 adds_mutation_rule(apply): a generated name. An info name that is gone is undefined behaviour: None *)
Definition b_rule_auto (d : bdata) (apply : nat) (p : perks) : option bdata :=
  match string_at d (bd_name d) with
  | Some n => Some (b_rule_named d (n ++ rule_infix ++ to_string (length (bd_rules d))) apply p)
  | None => None
  end.
(** mixin_info_data.hpp:201-228 on_mutation: the name is put together in the stored string (each += may move its characters), before it is viewed *)
Definition b_on_mutation (d : bdata) (rule_name : list N) (makes_dep : bool) (apply : nat) (p : perks) : option bdata :=
  match string_at d (bd_name d) with
  | Some n =>
    let st := {| bs_chars := n ++ [32%N] ++ rule_name ++ [60%N] ++ to_string (length (bd_rules d)) ++ [62%N]; bs_gen := 6 |} in
    let i := length (bd_rule_names d) in
    let k := length (bd_rule_store d) in
    Some {| bd_name := bd_name d; bd_stored := bd_stored d; bd_alloc := bd_alloc d; bd_dep := if makes_dep then true else bd_dep d;
      bd_force_external := bd_force_external d; bd_span := bd_span d; bd_features := bd_features d; bd_features_gen := bd_features_gen d;
      bd_rules := bd_rules d ++ [ROwn k];
      bd_rule_store := bd_rule_store d ++ [{| br_name := VRuleName i (bs_gen st); br_apply := apply; br_prio := value_or (pk_prio p) 0%Z |}];
      bd_rule_names := bd_rule_names d ++ [st] |}
  | None => None
  end.

Definition b_call (d : bdata) (c : bcall) : option bdata :=
  match c with
  | BName s => Some (b_name d (VLit s))
  | BStoreName s => Some (b_store_name d s)
  | BAllocator a => Some (b_allocator d a)
  | BDependency b => Some (b_dependency d b)
  | BImplements f pl pa pb => Some (b_implements d f pl pa pb)
  | BRule r => Some (b_rule d (RGiven r))
  | BRuleNamed n a p => Some (b_rule_named d n a p)
  | BRuleAuto a p => b_rule_auto d a p
  | BOnMutation n dep a p => b_on_mutation d n dep a p
  end.
Fixpoint b_calls (d : bdata) (l : list bcall) : option bdata :=
  match l with
  | [] => Some d
  | c :: r => match b_call d c with Some d' => b_calls d' r | None => None end
  end.

(** mixin_info_data.hpp:62-67: the builder starts with the name that it is given, a literal *)
Definition b_start (name : list N) : bdata := {|
  bd_name := VLit name; bd_stored := {| bs_chars := []; bs_gen := 0 |}; bd_alloc := None; bd_dep := false; bd_force_external := false; bd_span := (None, 0);
  bd_features := []; bd_features_gen := 0; bd_rules := []; bd_rule_store := []; bd_rule_names := [] |}.
Definition built (name : list N) (l : list bcall) : option bdata := b_calls (b_start name) l.

(** v1compat/define_mixin.hpp:104-111: the constructor of the v1 builder forces the mixin to be external and stores the name of the class *)
Definition b_start_v1 (name type_name : list N) : bdata :=
  let d := b_start name in
  b_store_name {| bd_name := bd_name d; bd_stored := bd_stored d; bd_alloc := bd_alloc d; bd_dep := bd_dep d; bd_force_external := true; bd_span := bd_span d;
    bd_features := bd_features d; bd_features_gen := bd_features_gen d; bd_rules := bd_rules d; bd_rule_store := bd_rule_store d; bd_rule_names := bd_rule_names d |} type_name.
End Builder.

(** What the domain sees in the finished info: info.name; info.features, None if the pointer is to memory that was left by a reallocation; the rules *)
Definition seen_name (d : bdata) : option (list N) := string_at d (bd_name d).
Definition seen_features (d : bdata) : option (list ffm) :=
  match fst (bd_span d) with
  | None => if snd (bd_span d) =? 0 then Some [] else None
  | Some g => if (g =? bd_features_gen d) && (snd (bd_span d) <=? length (bd_features d)) then Some (firstn (snd (bd_span d)) (bd_features d)) else None
  end.
(** A rule as seen through its pointer: a rule of the caller, or name, function and priority *)
Inductive seen_rule := SGiven (r : rptr) | SOwn (name : list N) (apply : nat) (prio : Z).
Definition rule_seen (d : bdata) (p : brule_ptr) : option seen_rule :=
  match p with
  | RGiven r => Some (SGiven r)
  | ROwn i =>
    match nth_error (bd_rule_store d) i with
    | Some b => option_map (fun n => SOwn n (br_apply b) (br_prio b)) (string_at d (br_name b))
    | None => None
    end
  end.
Definition seen_rules (d : bdata) : list (option seen_rule) := map (rule_seen d) (bd_rules d).
