(** Specification: messages whose functions call the library. *)
From Coq Require Import List Arith ZArith NArith Bool.
From Verif Require Import Base Sv Info TypeBuild TypeQuery Msg Domain SpecReg SpecMsg Heap Mutation Object SpecObj SpecMut SpecAct SpecSend Reenter.
Import ListNotations.

(** ** Contracts *)
(** The object has a type, and the feature is registered in its domain, or nowhere. *)
Definition can_send (s : st) (o : nat) (f : fptr) : Prop := exists r t, type_of s o r t /\ (feature_in (s_w s) (t_dom t) f \/ w_fid (s_w s) f = None).
(** The mixin is still there: some object has it at this address. *)
Definition still_there (s : st) (m : mptr) (p : addr) : Prop := exists o i v, holds s o i m p v.
Definition can_next (s : st) (m : mptr) (p : addr) (f : fptr) : Prop := exists o i v r t, holds s o i m p v /\ type_of s o r t /\ feature_in (s_w s) (t_dom t) f.
(** What the program must see to: its calls are fair (and do not unregister features in use). A function may use its own mixin only as
    long as it is still there. When a message goes on with another function, the object still has the type it had when the message
    was sent. For the first function of a message and for default payloads there is nothing to see to. *)
Definition respects (E : env) (e : entry) : Prop :=
  match e with
  | ECall s op _ => fair E s op /\ forall d, op = ODom d -> features_kept E (s_w s) d
  | ESelf s m p _ _ => still_there s m p
  | ESend s o f => can_send s o f
  | ENext s m p f => can_next s m p f
  | EOn s o r (S _) (ExecImpl _ _) => exists t, type_of s o r t
  | EOn _ _ _ _ _ => True
  | ENoThis _ => False
  end.
Definition state_of (e : entry) : st := match e with ECall s _ _ | ESelf s _ _ _ _ | ESend s _ _ | ENext s _ _ _ | EOn s _ _ _ _ | ENoThis s => s end.
(** The calls in a log; to work with its own mixin is the call OUse. *)
Inductive calls_made : list entry -> otrace -> Prop :=
| cm_nil : calls_made [] []
| cm_call s op r l tr : calls_made l tr -> calls_made (ECall s op r :: l) ((op, r) :: tr)
| cm_self s m p j r o i v l tr : holds s o i m p v -> calls_made l tr -> calls_made (ESelf s m p j r :: l) ((OUse o i j, r) :: tr)
| cm_send s o f l tr : calls_made l tr -> calls_made (ESend s o f :: l) tr
| cm_next s m p f l tr : calls_made l tr -> calls_made (ENext s m p f :: l) tr
| cm_on s o q c x l tr : calls_made l tr -> calls_made (EOn s o q c x :: l) tr.

(** ** How a message is delivered *)
(** [l] are the functions to call for object [o], the first of them number [c]. They are called in order, each in the state that the one before left.
    [runs x s L s' r]: function [x], called in state [s], logs [L] and ends in [s'] with outcome [r]. The first that throws ends the message with its exception. *)
Inductive delivers (runs : exec -> st -> list entry -> st -> res unit -> Prop) (o : nat) (r : tref) : nat -> list exec -> st -> list entry -> st -> res unit -> Prop :=
| dv_done c s : delivers runs o r c [] s [] s (Ok tt)
| dv_next c x l s L s1 L' s2 res : runs x s L s1 (Ok tt) -> delivers runs o r (S c) l s1 L' s2 res -> delivers runs o r c (x :: l) s (EOn s o r c x :: L ++ L') s2 res
| dv_throw c x l s L s1 e : runs x s L s1 (Throw e) -> delivers runs o r c (x :: l) s (EOn s o r c x :: L) s1 (Throw e).
(** A function of a mixin is called with the mixin that the object has at this index now, a default payload with the object. [run self P]: to run program [P] *)
Definition function_runs (run : option (mptr * addr) -> prog -> st -> out) (body : nat -> mptr -> addr -> st -> prog) (dbody : nat -> nat -> st -> prog) (o : nat)
  (x : exec) (s : st) (L : list entry) (s' : st) (r : res unit) : Prop :=
  match x with
  | ExecImpl i k => exists m p v, holds s o i m p v /\ run (Some (m, p)) (body k m p s) s = (L, (s', Some r))
  | ExecDefault k => run None (dbody k o s) s = (L, (s', Some r))
  end.

(** ** Functions that leave objects alone *)
(** No call changes one of the objects, other than through their mixins; messages are sent to these objects only. *)
Definition leaves_alone (E : env) (objs : list nat) (e : entry) : Prop :=
  match e with
  | ECall s op _ => respects E e /\ forall o, In o objs -> In o (may_change op) -> exists i j, op = OUse o i j
  | ESend s o f => In o objs /\ can_send s o f
  | ENext s m p f => forall o i v r t, holds s o i m p v -> type_of s o r t -> feature_in (s_w s) (t_dom t) f
  | ENoThis _ => False
  | ESelf _ _ _ _ _ | EOn _ _ _ _ _ => True
  end.

(** ** What must be so when a function is called *)
(** The table of the type is there, and so is the mixin that the object has at the index; the function is one for that mixin. *)
Definition callable (accepts : nat -> mptr -> bool) (e : entry) : Prop :=
  match e with
  | EOn s o r _ (ExecImpl i k) =>
    (exists t, w_type (s_w s) r = Some t) /\
    exists x b d y, s_obj s o = Some x /\ o_data x = Some b /\ data_slot s b i = Some d /\ instance s (md_mixin d) = Some y /\ accepts k (i_mixin y) = true
  | ENoThis _ => False
  | _ => True
  end.
