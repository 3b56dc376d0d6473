(** C89: the debug dump of a domain. *)
From Coq Require Import List Arith ZArith NArith Lia Bool Permutation Sorted.
From Verif Require Import Base Sv Info Registry TypeMut Rules TypeBuild TypeQuery Domain SpecReg SpecDom SpecMsg FtableProofs Life Dump SpecDump DumpProofs ExEnv ExKept.
Import ListNotations.

(** C89. Whatever was registered, unregistered and created before, the dump with all flags has no undefined behaviour, and what is shown is what is there. *)
Theorem C89_dump : forall E tr w d, run_where E (features_kept E) tr w -> exists x, dump_domain E w d = Ok x /\ shows_domain E w d x.
Proof. exact domain_shown. Qed.
Print Assumptions C89_dump.

(** The lines of a single type, also of the empty one. *)
Theorem C89_type : forall E tr w d r t, run_where E (features_kept E) tr w -> has_type w d r t ->
  exists ls, dump_impls t (ft_entries (t_ftable t)) = Ok ls /\ length (filter (fun x => is_some x) (ft_entries (t_ftable t))) = length ls /\
    NoDup (map il_feature ls) /\ Forall (shows_impl E (t_mixins t)) ls /\ (forall f, impls E (t_mixins t) f <> [] -> In f (map il_feature ls)).
Proof. exact impl_lines_shown. Qed.
Print Assumptions C89_type.

(** A dump of a domain with types, gaps, and features of several listings. *)
Definition du_ops : list dop :=
  [DRegFeature 0 6; DRegMixin 0 5; DRegMixin 0 0; DRegMixin 0 1; DRegMixin 0 2; DUnregMixin 0 5; DUnregFeature 0 6; DRegTc 0 0; DGetType 0 [0; 1; 2] true; DGetType 0 [1; 0] true].
Definition du_world : world := ex_after ex_env du_ops.
Example C89_example : run_where ex_env (features_kept ex_env) (ex_tr ex_env du_ops) du_world /\ has_type du_world 0 (TReg 0) (ex_type du_world (TReg 0)) /\
  exists x t l t2, dump_domain ex_env du_world 0 = Ok x /\ dl_features x = (3, [LEmpty 1; LInfo 0; LInfo 1; LInfo 2]) /\ dl_mixins x = (3, [LEmpty 1; LInfo 0; LInfo 1; LInfo 2]) /\
  dl_types x = (2, [t; t2]) /\ tl_mixins t = [0; 1; 2] /\ tl_num t = 3 /\ tl_queries t = [[0; 1; 2]] /\ tl_tcs t = [0] /\ hd_error (tl_impls t) = Some l /\
  l = {| il_feature := 0; il_top := 2; il_size := 3; il_rows := [(2, 14, 1%Z, (-3)%Z); (1, 12, 1%Z, 0%Z); (0, 10, 0%Z, 0%Z)] |} /\ tl_mixins t2 = [1; 0] /\
  dl_queries x = (2, [([0; 1; 2], [0; 1; 2]); ([1; 0], [1; 0])]).
Proof.
  split; [apply ex_kept; vm_compute; reflexivity|]. split; [split; [vm_compute; reflexivity|right; vm_compute; auto]|]. do 4 eexists. split; [vm_compute; reflexivity|]. repeat (split; [reflexivity|]). reflexivity.
Qed.
