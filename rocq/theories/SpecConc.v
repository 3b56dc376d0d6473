(** Specification of concurrent executions: linearizability. *)
From Coq Require Import List Arith.
From Verif Require Import Base Info Domain Conc.
Import ListNotations.

(** Each call takes effect at one moment between its call and its return: [GDo]. *)
Inductive gev := GCall (i : nat) (o : dop) | GDo (i : nat) (o : dop) (r : res (option tref)) | GRet (i : nat) (r : res (option tref)).

(** What a thread is doing *)
Inductive phase := Idle | Called (o : dop) | Did (r : res (option tref)).
Definition set_phase (p : nat -> phase) (i : nat) (x : phase) : nat -> phase := fun j => if j =? i then x else p j.

(** Every thread calls, takes effect once, returns what it got, calls again and so on. *)
Inductive one_by_one : list gev -> (nat -> phase) -> Prop :=
| ob_nil : one_by_one [] (fun _ => Idle)
| ob_call g p i o : one_by_one g p -> p i = Idle -> one_by_one (g ++ [GCall i o]) (set_phase p i (Called o))
| ob_do g p i o r : one_by_one g p -> p i = Called o -> one_by_one (g ++ [GDo i o r]) (set_phase p i (Did r))
| ob_ret g p i r : one_by_one g p -> p i = Did r -> one_by_one (g ++ [GRet i r]) (set_phase p i Idle).

(** The events that can be seen *)
Fixpoint seen (g : list gev) : list hev :=
  match g with
  | [] => []
  | GCall i o :: t => HCall i o :: seen t
  | GDo _ _ _ :: t => seen t
  | GRet i r :: t => HRet i r :: seen t
  end.
(** The sequential history of the effects *)
Fixpoint effects (g : list gev) : trace :=
  match g with
  | [] => []
  | GDo _ o r :: t => (o, r) :: effects t
  | _ :: t => effects t
  end.

(** The same state of all domains *)
Definition same_world (w w' : world) : Prop :=
  w_mid w = w_mid w' /\ w_mdom w = w_mdom w' /\ w_fid w = w_fid w' /\ (forall d, w_dom w d = w_dom w' d) /\
  w_type w = w_type w' /\ w_next w = w_next w'.

(** The events [h] and the final state [w] are those of a sequential program which executes the calls in some order that is
    compatible with the order of calls and returns in [h]. *)
Definition linearizable (E : env) (w0 : world) (h : list hev) (w : world) : Prop :=
  exists g p w1, one_by_one g p /\ seen g = h /\ run E w0 (effects g) w1 /\ same_world w1 w.

(** Nobody is in the middle of unregistering a mixin. *)
Definition not_unregistering (s : cst) : Prop := forall i d m, c_th s i <> Some (PUnreg d m).

(** The calls that were answered, with their results *)
Fixpoint answers_from (cur : nat -> option dop) (h : list hev) : list (dop * res (option tref)) :=
  match h with
  | [] => []
  | HCall i o :: t => answers_from (fun x => if x =? i then Some o else cur x) t
  | HRet i r :: t => match cur i with Some o => (o, r) :: answers_from cur t | None => answers_from cur t end
  end.
Definition answers (h : list hev) : list (dop * res (option tref)) := answers_from (fun _ => None) h.

(** Threads only ask for types, create and destroy objects, and change type classes. *)
Definition only_asks (h : list hev) : Prop :=
  forall i o, In (HCall i o) h ->
    match o with DGetType _ _ _ | DGetTypeMut _ _ _ _ | DNewObj _ | DDelObj _ | DRegTc _ _ | DUnregTc _ _ => True | _ => False end.

(** Nobody is in a call. *)
Definition all_done (s : cst) : Prop := forall i, c_th s i = None.

(** No mixin is registered or unregistered. *)
Definition no_registrations (h : list hev) : Prop :=
  forall i o, In (HCall i o) h -> match o with DRegMixin _ _ | DUnregMixin _ _ => False | _ => True end.
