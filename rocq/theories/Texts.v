(** The texts of the exceptions that calls of domains throw: code/dynamix/throw_exception.cpp:15-188, and what is read to make them. *)
From Coq Require Import List Arith ZArith NArith Bool String Ascii Decimal.
From Verif Require Import Base Sv Info Registry TypeMut Rules TypeBuild TypeQuery Domain Life Define.
Import ListNotations.
Open Scope list_scope.

(** The characters of a literal *)
Definition lit (s : string) : list N := map N_of_ascii (list_ascii_of_string s).

(** What is written to the stream. [PDomain]: throw_exception.cpp:26-34, reads the domain. [PName]: 36-54, the name of an info in quotes.
    [PId]: a number of 32 bits, the invalid id being the greatest (code/dnmx/bits/id_int_t.h:9). [PMixins]: 56-74. [PErr]: an error_return_t.
    Simplified: infos are read freely, the model has no end of infos. *)
Inductive piece :=
| PText (s : list N)
| PDomain (d : dptr)
| PName (n : sv)
| PId (i : option nat)
| PMixins (l : list mptr)
| PErr (e : Z).

Section Texts.
Variable E : env.
(** domain.hpp:44 name() *)
Variable dname : dptr -> list N.

Definition quote (s : list N) : list N := [39%N] ++ s ++ [39%N].
(** throw_exception.cpp:26-34 *)
Definition domain_chars (d : dptr) : list N := match dname d with [] => lit "unnamed domain" | n => n end.
(** throw_exception.cpp:56-69 *)
Fixpoint mixins_chars (first : bool) (l : list mptr) : list N :=
  match l with
  | [] => []
  | m :: r => (if first then [] else lit ", ") ++ quote (sv_bytes (m_name (e_mixin E m))) ++ mixins_chars false r
  end.
Definition error_chars (e : Z) : list N :=
  match Z.to_int e with Pos u => uint_chars u | Neg u => 45%N :: uint_chars u end.
Definition chars (p : piece) : list N :=
  match p with
  | PText s => s
  | PDomain d => domain_chars d
  | PName n => quote (sv_bytes n)
  | PId (Some i) => to_string i
  | PId None => lit "4294967295"
  | PMixins l => lit "{" ++ mixins_chars true l ++ lit "}"
  | PErr e => error_chars e
  end.
Definition render (l : list piece) : list N := flat_map chars l.
(** throw_exception.cpp:22-24 the constructor of e *)
Definition start (d : dptr) (l : list piece) : list piece := PDomain d :: PText (lit ": ") :: l.

(** Elements of the registry. throw_exception.cpp:93-95, 101-103, 113-115, 129-131 *)
Definition feature_text (w : world) (d : dptr) (f : fptr) (e : exn) : option (list piece) :=
  let n := f_name (e_feature E f) in
  match e with
  | EIdRegistered => Some (start d [PText (lit "register feature "); PName n; PText (lit " with a valid id "); PId (w_fid w f)])
  | EEmptyName => Some (start d [PText (lit "register feature with empty name")])
  | EDuplicateName => Some (start d [PText (lit "register feature with duplicate name "); PName n])
  | EUnregForeign => Some (start d [PText (lit "unregister foreign feature "); PName n; PText (lit ", id = "); PId (w_fid w f)])
  | _ => None
  end.
(** throw_exception.cpp:97-99, 105-107, 117-119, 125-127, 132-142. Line 126 has no check for null, domain.cpp:265 has made one.
    Line 134 says "feature" of a mixin. *)
Definition mixin_text (w : world) (d : dptr) (m : mptr) (e : exn) : option (list piece) :=
  let n := m_name (e_mixin E m) in
  match e with
  | EIdRegistered => Some (start d [PText (lit "register mixin "); PName n; PText (lit " with a valid id "); PId (w_mid w m)])
  | EEmptyName => Some (start d [PText (lit "register mixin with empty name")])
  | EDuplicateName => Some (start d [PText (lit "register mixin with duplicate name "); PName n])
  | EInfoHasDomain =>
    match w_mdom w m with
    | Some dm => Some (start d [PText (lit "register mixin "); PName n; PText (lit " which has a domain = "); PDomain dm])
    | None => None
    end
  | EUnregForeign =>
    Some (start d ([PText (lit "unregister foreign feature "); PName n; PText (lit ", id = "); PId (w_mid w m); PText (lit ", domain = ")] ++
      [match w_mdom w m with Some dm => PDomain dm | None => PText (lit "<null>") end]))
  | _ => None
  end.
(** domain.cpp:268-280: the feature of the list that register_mixin fails for *)
Fixpoint bad_feature (w : world) (d : dptr) (fs : list ffm) : option fptr :=
  match fs with
  | [] => None
  | f :: r =>
    match w_fid w (ff_info f) with
    | Some _ => bad_feature w d r
    | None =>
      match register_feature E w d (ff_info f) with
      | (w', Ok _) => bad_feature w' d r
      | _ => Some (ff_info f)
      end
    end
  end.
(** domain.cpp:264-285: the texts of register_mixin. The id of a feature that fails is invalid, as read at the start. *)
Definition register_mixin_text (w : world) (d : dptr) (m : mptr) (e : exn) : option (list piece) :=
  match e with
  | EInfoHasDomain => mixin_text w d m e
  | _ =>
    match bad_feature w d (m_features (e_mixin E m)) with
    | Some f => feature_text w d f e
    | None => mixin_text w d m e
    end
  end.
(** throw_exception.cpp:109-111, 121-123, 148-150 *)
Definition tc_text (d : dptr) (c : cptr) (e : exn) : option (list piece) :=
  let n := c_name (e_tc E c) in
  match e with
  | EEmptyName => Some (start d [PText (lit "register type class with empty name")])
  | EDuplicateName => Some (start d [PText (lit "register type class with duplicate name "); PName n])
  | ENoFunc => Some (start d [PText (lit "register type class "); PName n; PText (lit " with match function = null")])
  | _ => None
  end.
(** throw_exception.cpp:144-146 *)
Definition rule_text (d : dptr) (r : rptr) (e : exn) : option (list piece) :=
  match e with
  | ENoFunc => Some (start d [PText (lit "register mutation rule "); PName (r_name (e_rule E r)); PText (lit " with apply function = null")])
  | _ => None
  end.

(** domain.cpp:466-471: the rule that fails in a pass, if one does, and the mixins then.
    Simplified: a rule that fails has not changed the mixins. *)
Fixpoint pass_stop (lk : rview) (rules : list (rptr * nat)) (l : list mptr) : option rptr * list mptr :=
  match rules with
  | [] => (None, l)
  | (r, _) :: t =>
    match r_apply (e_rule E r) with
    | None => (None, l)
    | Some f => match f lk l with RuleErr _ => (Some r, l) | RuleOk l' => pass_stop lk t l' end
    end
  end.
(** domain.cpp:464-486: the rule and the mixins that the loop ends with; no rule if all passes were done, or if it gave up in line 479 *)
Fixpoint loop_stop (fuel i : nat) (lk : rview) (rules : list (rptr * nat)) (last cur : list mptr) : option rptr * list mptr :=
  match fuel with
  | O => (None, cur)
  | S fuel' =>
    match pass_stop lk rules cur with
    | (Some r, l) => (Some r, l)
    | (None, l) =>
      if list_eqb last l then (None, l)
      else if (i =? max_dependency_depth) || (i =? List.length rules) then (None, l)
      else loop_stop fuel' (S i) lk rules l l
    end
  end.
(** domain.cpp:438-487 for the mixins [q] *)
Definition rules_stop (w : world) (d : dptr) (q : list mptr) : option rptr * list mptr :=
  loop_stop (S max_dependency_depth) 0 (view E w d) (d_rules (w_dom w d)) q (filter (fun m => negb (m_dependency (e_mixin E m))) q).
(** domain.cpp:692-700: the mixin that a type cannot be created with *)
Fixpoint bad_mixin (w : world) (d : dptr) (l : list mptr) : option mptr :=
  match l with
  | [] => None
  | m :: r =>
    if negb (is_some (w_mid w m)) || negb (opt_eqb (w_mdom w m) (Some d)) || memb m r then Some m else bad_mixin w d r
  end.
(** domain.cpp:664-671: the first pair of neighbours with the same bid and priority *)
Fixpoint clash_pair (l : list fpayload) : option (fpayload * fpayload) :=
  match l with
  | cur :: ((next :: _) as r) =>
    if Z.eqb (ff_bid (fp_data cur)) (ff_bid (fp_data next)) && Z.eqb (ff_prio (fp_data cur)) (ff_prio (fp_data next)) then Some (cur, next) else clash_pair r
  | _ => None
  end.
(** domain.cpp:645-672: the pair that the entry of id [k] fails for. Simplified: the payloads of the entry are taken from the mixins, in whose order lines 617-639 write them. *)
Definition clash_at (fid : fptr -> option nat) (mixins : list mptr) (k : nat) : option (fpayload * fpayload) :=
  let fs := filter (fun x => opt_eqb (fid (ff_info (snd x))) (Some k)) (all_features E mixins) in
  match sort_by payload_less (map (fun x => {| fp_mixin := fst x; fp_payload := ff_payload (snd x); fp_data := snd x |}) fs) with
  | [] => None
  | top :: r => if f_allow_clashes (e_feature E (ff_info (fp_data top))) then None else clash_pair (top :: r)
  end.
(** domain.cpp:645: the entries in their order *)
Fixpoint clash_from (fid : fptr -> option nat) (mixins : list mptr) (ks : list nat) : option (fpayload * fpayload) :=
  match ks with
  | [] => None
  | k :: r => match clash_at fid mixins k with Some p => Some p | None => clash_from fid mixins r end
  end.
Definition clash_of (fid : fptr -> option nat) (mixins : list mptr) : option (fpayload * fpayload) :=
  clash_from fid mixins (seq 0 (ftable_size fid (all_features E mixins))).
(** throw_exception.cpp:156-166, 169-171, 173-175, 177-179, 185-188: the texts of get_type once the mutation is one of domain [d]. *)
Definition type_text (w : world) (d : dptr) (q : list mptr) (e : exn) : option (list piece) :=
  let (r, l) := rules_stop w d q in
  match e with
  | ERuleUser z =>
    match r with
    | Some r => Some (start d [PText (lit "applying mutation rule "); PName (r_name (e_rule E r)); PText (lit " to "); PMixins l; PText (lit " failed with error "); PErr z])
    | None => None
    end
  | ECyclicRules => Some (start d [PText (lit "rule interdependency too deep or cyclic at "); PMixins l])
  | EUnregisteredMixin | EDuplicateMixin =>
    match bad_mixin w d l with
    | Some m => Some (start d [PText (lit "creating type "); PMixins l; PText (lit ": "); PName (m_name (e_mixin E m)); PText (lit " ");
                               PText (match e with EDuplicateMixin => lit "duplicate" | _ => lit "unregistered" end)])
    | None => None
    end
  | EForeignMixin =>
    match bad_mixin w d l with
    | Some m =>
      Some (start d ([PText (lit "foreign mixin "); PName (m_name (e_mixin E m)); PText (lit " from ")] ++
        (match w_mdom w m with Some dm => [PText (lit "'"); PDomain dm; PText (lit "'")] | None => [PText (lit "<null>")] end) ++
        [PText (lit " while trying to create type "); PMixins l]))
    | None => None
    end
  | EFeatureClash =>
    match clash_of (w_fid w) l with
    | Some (a, b) =>
      match nth_error l (fp_mixin a), nth_error l (fp_mixin b) with
      | Some ma, Some mb =>
        Some (start d [PText (lit "feature clash in "); PMixins l; PText (lit " on "); PName (f_name (e_feature E (ff_info (fp_data a)))); PText (lit " between ");
                       PName (m_name (e_mixin E ma)); PText (lit " and "); PName (m_name (e_mixin E mb))])
      | _, _ => None
      end
    | None => None
    end
  | _ => None
  end.
(** throw_exception.cpp:152-154 *)
Definition mutation_text (d dm : dptr) (q : list mptr) : list piece :=
  start d [PText (lit "requested type with foreign mutation "); PMixins q; PText (lit " of domain '"); PDomain dm; PText (lit "'")].

(** The text of the exception [e] of a call that is made in the world [w]. No text: what an allocator throws (EBadAlloc). *)
Definition text_of (w : world) (o : dop) (e : exn) : option (list piece) :=
  match o with
  | DRegFeature d f | DUnregFeature d f => feature_text w d f e
  | DRegMixin d m => register_mixin_text w d m e
  | DUnregMixin d m => mixin_text w d m e
  | DRegTc d c => tc_text d c e
  | DAddRule d r => rule_text d r e
  | DGetType d q _ => type_text w d q e
  | DGetTypeMut d dm q _ => match e with EForeignMutation => Some (mutation_text d dm q) | _ => type_text w d q e end
  | DUnregTc _ _ | DRemRule _ _ | DGc _ | DNewObj _ | DDelObj _ => None
  end.

(** The domains that are read for a text *)
Definition domains_read (l : list piece) : list dptr := flat_map (fun p => match p with PDomain d => [d] | _ => [] end) l.

(** What a caller sees of a call *)
Inductive told := Done (r : res (option tref)) | Told (e : exn) (text : list N).
(** One step of Life.v with the text of its exception: undefined if a domain that was destroyed is read for it. *)
Definition tell (l : lworld) (o : lop) : lworld * told :=
  let (l', r) := lstep E l o in
  match o, r with
  | LCall c, Throw e =>
    match text_of (l_w l) c e with
    | Some ps => if existsb (l_dead l) (domains_read ps) then (l', Done (Ub UbDangling)) else (l', Told e (render ps))
    | None => (l', Done r)
    end
  | _, _ => (l', Done r)
  end.
End Texts.
