(** The operations of a domain when memory runs out: code/dynamix/domain.cpp 195-234, 245-285, 337-360, 405-416, 451-547, 689-836.
    Only bad_alloc of the containers and buffers is added to what Domain.v says. Not modelled: memory running out while an exception with a text is
    being made (throw_exception.cpp). *)
From Coq Require Import List Arith ZArith NArith Lia Bool.
From Verif Require Import Base Sv Info Registry TypeMut Rules TypeBuild TypeQuery Domain.
Import ListNotations.

Section Oom.
Variable E : env.

(** What becomes of the requests for memory, in their order: [false] fails; after the end of the list all succeed.
    A container that has capacity left makes no request; such a case is one of [true]. *)
Definition mem := list bool.
Definition take (al : mem) : bool * mem := match al with [] => (true, []) | b :: r => (b, r) end.

(** push_back (domain.cpp:229) and emplace_back (357): a request if the array gets longer *)
Definition grow (old new : list (option nat)) (al : mem) : bool * mem :=
  if length old =? length new then (true, al) else take al.

(** domain.cpp:245-247 register_feature, and 277. push_back comes before the writes to the info and the array (229, 232-233). *)
Definition register_feature_m (w : world) (d : dptr) (f : fptr) (al : mem) : world * res unit * mem :=
  match register_feature E w d f with
  | (w', Ok x) =>
    let (b, al') := grow (d_features (w_dom w d)) (d_features (w_dom w' d)) al in
    if b then (w', Ok x, al') else (w, Throw EBadAlloc, al')
  | (w', r) => (w', r, al)
  end.

(** domain.cpp:268-280 *)
Fixpoint register_features_m (w : world) (d : dptr) (fs : list ffm) (al : mem) : world * res unit * mem :=
  match fs with
  | [] => (w, Ok tt, al)
  | f :: r =>
    match w_fid w (ff_info f) with
    | Some i =>
      match nth_error (d_features (w_dom w d)) i with
      | Some (Some p) => if p =? ff_info f then register_features_m w d r al else (w, Ub UbAssert, al)
      | Some None => (w, Ub UbAssert, al)
      | None => (w, Ub UbOutOfBounds, al)
      end
    | None =>
      match register_feature_m w d (ff_info f) al with
      | (w', Ok _, al') => register_features_m w' d r al'
      | (w', x, al') => (w', x, al')
      end
    end
  end.

(** domain.cpp:264-285 register_mixin *)
Definition register_mixin_m (w : world) (d : dptr) (m : mptr) (al : mem) : world * res unit :=
  if match w_mdom w m with Some d' => negb (d' =? d) | None => false end then (w, Throw EInfoHasDomain)
  else
    match register_features_m w d (m_features (e_mixin E m)) al with
    | (w1, Ok _, al1) =>
      let s := w_dom w1 d in
      match basic_register (mname E) (w_mid w1) (d_mixins s) (negb (s_dup_mixins (e_settings E d))) m with
      | Ok (sp, id) =>
        if fst (grow (d_mixins s) sp al1) then
          ({| w_mid := upd (w_mid w1) m (Some id); w_mdom := upd (w_mdom w1) m (Some d); w_fid := w_fid w1;
              w_dom := upd (w_dom w1) d (with_mixins s sp); w_type := w_type w1; w_next := w_next w1 |}, Ok tt)
        else (w1, Throw EBadAlloc)
      | Throw e => (w1, Throw e)
      | Ub u => (w1, Ub u)
      end
    | (w1, x, _) => (w1, x)
    end.

(** domain.cpp:337-360 register_type_class *)
Definition register_tc_m (w : world) (d : dptr) (c : cptr) (al : mem) : world * res unit :=
  match register_type_class E w d c with
  | (w', Ok x) => if fst (grow (d_tcs (w_dom w d)) (d_tcs (w_dom w' d)) al) then (w', Ok x) else (w, Throw EBadAlloc)
  | x => x
  end.

(** domain.cpp:405-416 add_mutation_rule. mutation_rules[&info] is a request if the rule is new. *)
Definition add_rule_m (w : world) (d : dptr) (r : rptr) (al : mem) : world * res unit :=
  match r_apply (e_rule E r) with
  | None => (w, Throw ENoFunc)
  | Some _ => if negb (length (fst (rules_incr E r (d_rules (w_dom w d)))) =? length (d_rules (w_dom w d))) && negb (fst (take al)) then (w, Throw EBadAlloc) else add_rule E w d r
  end.

(** reg->types.emplace(...), domain.cpp:819, when nothing equivalent is there: the type is in the set *)
Definition add_type (w : world) (d : dptr) (t : type_rec) : world :=
  let s := w_dom w d in
  {| w_mid := w_mid w; w_mdom := w_mdom w; w_fid := w_fid w;
     w_dom := upd (w_dom w) d (with_types s (d_types s ++ [TReg (w_next w)]) (d_queries s));
     w_type := tupd (w_type w) (TReg (w_next w)) (Some t); w_next := S (w_next w) |}.

(** domain.cpp:489-531 get_type(mutation), 689-836 create_type. The requests: copies of the query (459, 482; simplified: the first stands for all), the buffers for
    the new type (alloc_ok, see build_type, and the first of the two below for the node in the set), the node for the stored query (528, 834).
    If the last one fails in create_type, the type stays in the set. *)
Definition get_type_mut_m (alloc_ok : bool) (w : world) (d dm : dptr) (q : list mptr) (al : mem) : world * res tref :=
  if negb (dm =? d) then (w, Throw EForeignMutation)
  else
    match find_query q (d_queries (w_dom w d)) with
    | Some t => (w, Ok t)
    | None =>
      let (copies, al1) := take al in
      if negb copies then (w, Throw EBadAlloc)
      else
        match lookup_type E w d q with
        | Ok (LStored t) => (w, Ok t)
        | Ok (LNew oq ms (Some t)) => if fst (take al1) then (store_found w d oq t, Ok t) else (w, Throw EBadAlloc)
        | Ok (LNew oq ms None) =>
          match build_type E (w_fid w) (w_mid w) (w_mdom w) alloc_ok d ms with
          | Ok t =>
            let (set_node, al2) := take al1 in
            if negb set_node then (w, Throw EBadAlloc)
            else
              match find_type w (t_mixins t) (d_types (w_dom w d)) with
              | Some r => if fst (take al2) then (store_found w d oq r, Ok r) else (w, Throw EBadAlloc)
              | None =>
                if fst (take al2) then (store_found (add_type w d t) d oq (TReg (w_next w)), Ok (TReg (w_next w)))
                else (add_type w d t, Throw EBadAlloc)
              end
          | Throw e => (w, Throw e)
          | Ub u => (w, Ub u)
          end
        | Throw e => (w, Throw e)
        | Ub u => (w, Ub u)
        end
    end.

(** domain.cpp:533-547 get_type(mixins): one more copy of the query (545) *)
Definition get_type_m (alloc_ok : bool) (w : world) (d : dptr) (q : list mptr) (al : mem) : world * res tref :=
  match find_query q (d_queries (w_dom w d)) with
  | Some t => (w, Ok t)
  | None => let (copy, al1) := take al in if copy then get_type_mut_m alloc_ok w d d q al1 else (w, Throw EBadAlloc)
  end.

(** One call; those that are not listed make no request. *)
Definition dstep_m (w : world) (o : dop) (al : mem) : world * res (option tref) :=
  match o with
  | DRegFeature d f => forget (fst (register_feature_m w d f al))
  | DRegMixin d m => forget (register_mixin_m w d m al)
  | DRegTc d c => forget (register_tc_m w d c al)
  | DAddRule d r => forget (add_rule_m w d r al)
  | DGetType d q ok => retty (get_type_m ok w d q al)
  | DGetTypeMut d dm q ok => retty (get_type_mut_m ok w d dm q al)
  | _ => dstep E w o
  end.

Inductive run_m : list (dop * res (option tref)) -> world -> Prop :=
| rm_nil : run_m [] (init_world E)
| rm_snoc tr w o al w' r : run_m tr w -> dstep_m w o al = (w', r) -> ~ is_ub r -> run_m (tr ++ [(o, r)]) w'.
End Oom.
