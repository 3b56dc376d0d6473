(** Messages whose functions call the library: code/dynamix/msg/msg_caller.hpp:16-80, msg/next_impl.hpp:19-72 once more, with
    functions that make calls themselves (doc/advanced/danger.md:30-42). ObjMsg.v has them with functions that only work with their own mixin. *)
From Coq Require Import List Arith ZArith NArith Lia Bool.
From Verif Require Import Base Sv Info TypeBuild TypeQuery Msg Domain Heap Mutation Object ObjMsg.
Import ListNotations.
Open Scope res_scope.

Inductive next_kind := NImpl | NSet | NTop.
(** What a function does; what it goes on with depends on the outcome of its last step and on all it can see. [PCall]: any call of
    the library. [PSelf]: it works with its own mixin, through its this pointer. [PSend]: it sends a message ([mc]: a multicast)
    to an object. [PNext]: DYNAMIX_CALL_NEXT_IMPL_MSG, _BIDDER_SET, _BIDDER_TOP (next_impl.hpp:76-81), with its this pointer. *)
Inductive prog :=
| PRet
| PThrow (e : exn)
| PCall (op : oop) (k : res unit -> st -> prog)
| PSelf (j : nat) (k : res unit -> st -> prog)
| PSend (mc : bool) (o : nat) (f : fptr) (k : res unit -> st -> prog)
| PNext (n : next_kind) (f : fptr) (k : res unit -> st -> prog).

(** What happened: calls of the library and of functions, with the states they were made in. [EOn]: the function
    number [c] of a message to object [o], which had type [r] when it was sent. [ENoThis]: a function without this pointer (a default payload) that
    uses one; C++ has no such program *)
Inductive entry :=
| ECall (s : st) (op : oop) (r : res unit)
| ESelf (s : st) (m : mptr) (p : addr) (j : nat) (r : res unit)
| ESend (s : st) (o : nat) (f : fptr)
| ENext (s : st) (m : mptr) (p : addr) (f : fptr)
| EOn (s : st) (o : nat) (r : tref) (c : nat) (x : exec)
| ENoThis (s : st).
(** The log, the state, and the outcome; None: not yet done *)
Definition out := (list entry * (st * option (res unit)))%type.
Definition ends (s : st) (r : res unit) : out := ([], (s, Some r)).
Definition logged (e : entry) (x : out) : out := (e :: fst x, snd x).
(** go on after the outcome, unless it is undefined behaviour or there is none yet *)
Definition after (x : out) (k : res unit -> st -> out) : out :=
  match x with
  | (l, (s, Some (Ub u))) => (l, (s, Some (Ub u)))
  | (l, (s, Some r)) => let y := k r s in (l ++ fst y, snd y)
  | (l, (s, None)) => (l, (s, None))
  end.

Section Reenter.
Variable E : env.
Variable U : user.
Variable accepts : nat -> mptr -> bool.
(** The functions: payload [k] called with a mixin, and default payload [k] called with an object *)
Variable body : nat -> mptr -> addr -> st -> prog.
Variable dbody : nat -> nat -> st -> prog.

(** msg_caller.hpp:52-62, 64-80: the type of the object, and the functions to call. Simplified: the table is read before the first
    of them is called; types do not change while they live, and that the type lives is checked below. *)
Definition sending (mc : bool) (o : nat) (f : fptr) (s : st) : res (tref * list exec) :=
  match (let* x := get_obj o in the_type x) s with
  | (_, Ok rt) =>
    do l <- (if mc then do y <- call_multicast E (w_fid (s_w s)) (snd rt) f; Ok (fst y)
             else do y <- call_unicast E (w_fid (s_w s)) (snd rt) f; Ok [y]);
    Ok (fst rt, l)
  | (_, Throw e) => Throw e
  | (_, Ub u) => Ub u
  end.
(** next_impl.hpp:19-31, 39-58, 60-72: the same for the pointer [p] to a mixin [m] *)
Definition nexting (n : next_kind) (m : mptr) (p : addr) (f : fptr) (s : st) : res (nat * tref * list exec) :=
  match (let* o := object_at p in let* x := get_obj o in let* rt := the_type x in ret (o, rt)) s with
  | (_, Ok (o, rt)) =>
    let fid := w_fid (s_w s) in
    let mid := w_mid (s_w s) in
    do l <- match n with
            | NImpl => do y <- call_next_impl fid mid (snd rt) f m; Ok [y]
            | NSet => do y <- call_next_bidder_set fid mid (snd rt) f m; Ok (fst y)
            | NTop => do y <- call_next_bidder_top fid mid (snd rt) f m; Ok [y]
            end;
    Ok (o, fst rt, l)
  | (_, Throw e) => Throw e
  | (_, Ub u) => Ub u
  end.
(** msg_caller.hpp:43-47: the mixin that a function gets *)
Definition the_mixin (o i k : nat) (s : st) : res (mptr * addr) :=
  match (let* x := get_obj o in let* p := data_at x i in let* y := inst_at p in ret (i_mixin y, p)) s with
  | (_, Ok mp) => if accepts k (fst mp) then Ok mp else Ub UbLifetime
  | (_, Throw e) => Throw e
  | (_, Ub u) => Ub u
  end.

(** [each run o r c l]: the loops msg_caller.hpp:72-76 and next_impl.hpp:52-57. An element of the table of the type is read, the type
    must be there; then the mixin is taken from the object as it is now. Exceptions end the loop. *)
Fixpoint each (run : option (mptr * addr) -> prog -> st -> out) (o : nat) (r : tref) (c : nat) (l : list exec) (s : st) : out :=
  match l with
  | [] => ends s (Ok tt)
  | x :: l' =>
    logged (EOn s o r c x)
      (after (match x with
              | ExecDefault k => run None (dbody k o s) s
              | ExecImpl i k =>
                match w_type (s_w s) r with
                | None => ends s (Ub UbDangling)
                | Some _ =>
                  match the_mixin o i k s with
                  | Ok mp => run (Some mp) (body k (fst mp) (snd mp) s) s
                  | Throw e => ends s (Throw e)
                  | Ub u => ends s (Ub u)
                  end
                end
              end)
         (fun res s' => match res with Ok _ => each run o r (S c) l' s' | _ => ends s' res end))
  end.

(** [n] bounds the steps of a function and the depth of the calls; what is not done by then has the outcome None. [self]: the mixin it was called with *)
Fixpoint go (n : nat) (self : option (mptr * addr)) (P : prog) (s : st) : out :=
  match n with
  | O => ([], (s, None))
  | S n' =>
    match P with
    | PRet => ends s (Ok tt)
    | PThrow e => ends s (Throw e)
    | PCall op k =>
      let (s1, r) := op_run E U op s in
      logged (ECall s op r) (after (ends s1 r) (fun r s => go n' self (k r s) s))
    | PSelf j k =>
      match self with
      | None => logged (ENoThis s) (ends s (Ub UbNull))
      | Some (m, p) =>
        let (s1, r) := update U j m p s in
        logged (ESelf s m p j r) (after (ends s1 r) (fun r s => go n' self (k r s) s))
      end
    | PSend mc o f k =>
      logged (ESend s o f)
        (after (match sending mc o f s with
                | Ok rl => each (go n') o (fst rl) 0 (snd rl) s
                | Throw e => ends s (Throw e)
                | Ub u => ends s (Ub u)
                end) (fun r s => go n' self (k r s) s))
    | PNext nk f k =>
      match self with
      | None => logged (ENoThis s) (ends s (Ub UbNull))
      | Some (m, p) =>
        logged (ENext s m p f)
          (after (match nexting nk m p f s with
                  | Ok orl => each (go n') (fst (fst orl)) (snd (fst orl)) 0 (snd orl) s
                  | Throw e => ends s (Throw e)
                  | Ub u => ends s (Ub u)
                  end) (fun r s => go n' self (k r s) s))
      end
    end
  end.
End Reenter.
