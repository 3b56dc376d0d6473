(** The rule ids of dynamix 1: v1compat/code/dynamix/v1compat/mutation_rules.cpp 26-68 *)
From Coq Require Import List Arith ZArith NArith Bool.
From Verif Require Import Base Sv Info Registry Rules Domain.
Import ListNotations.

(** mutation_rules.cpp:26-28: the vector of shared pointers, next to the world with the v1 domain *)
Record vst := { v_w : world; v_slots : list (option rptr) }.

Section V1.
Variable E : env.
Variable dv : dptr. (* v1compat::domain::instance() *)

(** mutation_rules.cpp:44-47: the first null element, or a new one at the end (which is null) *)
Fixpoint find_null (l : list (option rptr)) : list (option rptr) * nat :=
  match l with
  | [] => ([None], 0)
  | None :: _ => (l, 0)
  | Some r :: t => let (t', i) := find_null t in (Some r :: t', S i)
  end.

(** mutation_rules.cpp:41-53 add_mutation_rule(shared_ptr) and 55-57 add_mutation_rule(pointer).
    Simplified: ids are natural numbers instead of 32 bit; that the map of rules of the domain may fail to allocate is not
    modelled. *)
Definition v1_add (s : vst) (rule : option rptr) : vst * res nat :=
  let (slots, i) := find_null (v_slots s) in
  match rule with
  | None => ({| v_w := v_w s; v_slots := slots |}, Ub UbNull)
  | Some r =>
    match add_rule E (v_w s) dv r with
    | (w, Ok _) => ({| v_w := w; v_slots := set_nth i (Some r) slots |}, Ok i)
    | (w, Throw e) => ({| v_w := w; v_slots := slots |}, Throw e)
    | (w, Ub u) => ({| v_w := w; v_slots := slots |}, Ub u)
    end
  end.

(** mutation_rules.cpp:59-68 remove_mutation_rule *)
Definition v1_remove (s : vst) (id : nat) : vst * res (option rptr) :=
  match nth_error (v_slots s) id with
  | None => (s, Ok None)
  | Some None => (s, Ok None)
  | Some (Some r) =>
    match remove_rule E (v_w s) dv r with
    | (w, Ok _) => ({| v_w := w; v_slots := set_nth id None (v_slots s) |}, Ok (Some r))
    | (w, Throw e) => ({| v_w := w; v_slots := set_nth id None (v_slots s) |}, Throw e)
    | (w, Ub u) => ({| v_w := w; v_slots := set_nth id None (v_slots s) |}, Ub u)
    end
  end.

(** Calls of a program: the two functions and any other use of domains. *)
Inductive vop := VAdd (rule : option rptr) | VRemove (id : nat) | VDom (o : dop).
(** What they return: an id, a rule or null, or the result of the other call *)
Inductive vret := RId (id : nat) | RRule (r : option rptr) | RDom (t : option tref).
Definition vmap {A} (f : A -> vret) (x : vst * res A) : vst * res vret :=
  (fst x, match snd x with Ok a => Ok (f a) | Throw e => Throw e | Ub u => Ub u end).
Definition vstep (s : vst) (o : vop) : vst * res vret :=
  match o with
  | VAdd r => vmap RId (v1_add s r)
  | VRemove i => vmap RRule (v1_remove s i)
  | VDom o => let (w, x) := dstep E (v_w s) o in vmap RDom ({| v_w := w; v_slots := v_slots s |}, x)
  end.

(** Histories; [ok] restricts the calls. *)
Inductive vrun (ok : vop -> Prop) : list (vop * res vret) -> vst -> Prop :=
| vr_nil : vrun ok [] {| v_w := init_world E; v_slots := [] |}
| vr_snoc tr s o r s' : vrun ok tr s -> ok o -> vstep s o = (s', r) -> ~ is_ub r -> vrun ok (tr ++ [(o, r)]) s'.

End V1.
