(** Definitions with static storage duration: code/dynamix/define_domain.hpp, define_mixin.hpp, define_type_class.hpp, globals.hpp.
    They begin in any order (that of translation units is not specified, and functions with static variables may be called before);
    the program ends them in the reverse order of their completion. *)
From Coq Require Import List Arith ZArith NArith Bool.
From Verif Require Import Base Sv Info Registry TypeBuild Domain Define Life.
Import ListNotations.

(** Variables of static storage duration: the_domain in define_domain.hpp:9, data in define_mixin.hpp:20, the instance of DYNAMIX_DEFINE_MIXIN_EX
    (define_mixin.hpp:43) and that of a type class (define_type_class.hpp:26). The infos of features (define_msg.hpp:12) and type classes have no destructors.
    [SObj]: an object of the program (object.cpp:24-29, 43-45) that is made with a type. Simplified: of objects only the type they are counted for; it stays the same. *)
Inductive sobj := SDomain (d : dptr) | SData (m : mptr) | SInst (m : mptr) | SClass (d : dptr) (c : cptr) | SObj (r : tref).
(** The world; the completed variables, the last one first; what was destroyed. The world keeps for a destroyed domain what it had at its end; nothing looks at it. *)
Record gst := { g_w : world; g_stack : list sobj; g_dead : dptr -> bool; g_gone : mptr -> bool }.
Definition push (x : sobj) (s : gst) : gst := {| g_w := g_w s; g_stack := x :: g_stack s; g_dead := g_dead s; g_gone := g_gone s |}.
Definition with_world (s : gst) (w : world) : gst := {| g_w := w; g_stack := g_stack s; g_dead := g_dead s; g_gone := g_gone s |}.

Section Globals.
Variable E : env.
(** The mixins that are defined, with the rules that their builders gave them; and the data that a rule is part of (mutation_rule_info_storage), if any *)
Variable data : mptr -> option (list rptr).
Variable owner : rptr -> option mptr.
Definition md_of (m : mptr) : mixin_data := {| md_info := m; md_rules := match data m with Some l => l | None => [] end |}.

(** define_domain.hpp:8-11: get_domain. A static variable of a function is made by the first call; using it after its end is undefined: None *)
Definition need_domain (s : gst) (d : dptr) : option gst :=
  if g_dead s d then None
  else Some (if existsb (fun x => match x with SDomain d' => d' =? d | _ => false end) (g_stack s) then s else push (SDomain d) s).
(** define_mixin.hpp:19-22: the_data_safe *)
Definition need_data (s : gst) (m : mptr) : option gst :=
  if g_gone s m then None
  else Some (if existsb (fun x => match x with SData m' => m' =? m | _ => false end) (g_stack s) then s else push (SData m) s).
(** May a call be made on domain [d]? It must not be destroyed, and the infos of its mixins and rules neither. Simplified: a call may read all of them. *)
Definition usable (s : gst) (d : dptr) : bool :=
  negb (g_dead s d) && forallb (fun m => negb (g_gone s m)) (visit_sparse (d_mixins (w_dom (g_w s) d))) &&
  forallb (fun x => match owner (fst x) with Some m => negb (g_gone s m) | None => true end) (d_rules (w_dom (g_w s) d)).
Definition done {A} (s : gst) (wr : world * res A) (uncaught : ended) : gst * ended :=
  match wr with
  | (w, Ok _) => (with_world s w, EReturns)
  | (w, Throw _) => (with_world s w, uncaught)
  | (w, Ub u) => (with_world s w, EUb u)
  end.

(** Before the end of the program: [GGet], [GInfo]: somebody asks for a domain or for the data of a mixin; [GDefine], [GClass]: the initialization of an instance;
    [GObj]: that of an object with type [r]; [GCall]: a call on a domain. *)
Inductive gop := GGet (d : dptr) | GInfo (m : mptr) | GDefine (d : dptr) (m : mptr) | GClass (d : dptr) (c : cptr) | GObj (r : tref) | GCall (o : dop).
Definition on (s : option gst) (d : dptr) (k : gst -> gst * ended) (s0 : gst) : gst * ended :=
  match s with
  | Some s1 => match need_domain s1 d with
               | Some s2 => if usable s2 d then k s2 else (s2, EUb UbDangling)
               | None => (s1, EUb UbDangling)
               end
  | None => (s0, EUb UbDangling)
  end.
Definition completed (x : sobj) (r : gst * ended) : gst * ended :=
  match r with (s, EReturns) => (push x s, EReturns) | _ => r end.
(** define_mixin.hpp:24-26, 40-44; define_type_class.hpp:14-16, 26. An exception from an initialization ends the program; exceptions of other calls are caught. *)
Definition gstep (s : gst) (o : gop) : gst * ended :=
  match o with
  | GGet d => match need_domain s d with Some s1 => (s1, EReturns) | None => (s, EUb UbDangling) end
  | GInfo m => match need_data s m with Some s1 => (s1, EReturns) | None => (s, EUb UbDangling) end
  | GDefine d m => completed (SInst m) (on (need_data s m) d (fun s2 => done s2 (register_in E (g_w s2) d (md_of m)) ETerminates) s)
  | GClass d c => completed (SClass d c) (on (Some s) d (fun s2 => done s2 (dstep E (g_w s2) (DRegTc d c)) ETerminates) s)
  | GObj r =>
    match on_domain (g_w s) (DNewObj r) with
    | Some d => completed (SObj r) (on (Some s) d (fun s2 => done s2 (dstep E (g_w s2) (DNewObj r)) ETerminates) s)
    | None => (s, EUb UbDangling)
    end
  | GCall o =>
    match on_domain (g_w s) o with
    | Some d => on (Some s) d (fun s2 => done s2 (dstep E (g_w s2) o) EReturns) s
    | None => (s, EUb UbDangling)
    end
  end.
Definition g_init : gst := {| g_w := init_world E; g_stack := []; g_dead := fun _ => false; g_gone := fun _ => false |}.
Inductive grun (ok : gst -> gop -> Prop) : list gop -> gst -> Prop :=
| gr_nil : grun ok [] g_init
| gr_snoc tr s o s' : grun ok tr s -> ok s o -> gstep s o = (s', EReturns) -> grun ok (tr ++ [o]) s'.

(** The destructor of a variable. define_mixin.hpp:27-32; define_type_class.hpp:17-19; ~domain as in Life.v; ~mixin_info_data frees the info. *)
Definition destroy (s : gst) (x : sobj) : gst * ended :=
  match x with
  | SInst m =>
    if g_gone s m then (s, EUb UbDangling)
    else match w_mdom (g_w s) m with
         | None => (s, EReturns)
         | Some d => if usable s d then let (w, e) := end_definition E (g_w s) (md_of m) in (with_world s w, e) else (s, EUb UbDangling)
         end
  | SClass d c => if usable s d then done s (dstep E (g_w s) (DUnregTc d c)) ETerminates else (s, EUb UbDangling)
  | SObj r =>
    match on_domain (g_w s) (DDelObj r) with
    | Some d => if usable s d then done s (dstep E (g_w s) (DDelObj r)) ETerminates else (s, EUb UbDangling)
    | None => (s, EUb UbDangling)
    end
  | SData m => ({| g_w := g_w s; g_stack := g_stack s; g_dead := g_dead s; g_gone := upd (g_gone s) m true |}, EReturns)
  | SDomain d =>
    match destroy_domain E (g_w s) d with
    | Ok _ => ({| g_w := g_w s; g_stack := g_stack s; g_dead := upd (g_dead s) d true; g_gone := g_gone s |}, EReturns)
    | Throw _ => (s, ETerminates)
    | Ub u => (s, EUb u)
    end
  end.
Definition pop (s : gst) (l : list sobj) : gst := {| g_w := g_w s; g_stack := l; g_dead := g_dead s; g_gone := g_gone s |}.
(** The end of the program, with what was destroyed and the state before that *)
Fixpoint at_exit (l : list sobj) (s : gst) : list (sobj * gst) * (gst * ended) :=
  match l with
  | [] => ([], (s, EReturns))
  | x :: l' =>
    match destroy (pop s l') x with
    | (s1, EReturns) => let (log, r) := at_exit l' s1 in ((x, s) :: log, r)
    | r => ([(x, s)], r)
    end
  end.
Definition g_exit (s : gst) : list (sobj * gst) * (gst * ended) := at_exit (g_stack s) s.
End Globals.
