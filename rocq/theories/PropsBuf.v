(** Theorems C78: a type and all its tables are one buffer *)
From Coq Require Import List Arith ZArith NArith Lia Bool.
From Verif Require Import Base BaseLemmas Sv Info TypeBuild TypeQuery Domain SpecDom TypeBuf SpecBuf ExEnv ExFirst ExKept TypeBufProofs2 PropsDom PropsMsg.
Import ListNotations.
Local Open Scope N_scope.

(** C78. [T] is sizeof(type). *)
Theorem C78_buffer : forall E fid mid T mdom a d ms M t, T mod 8 = 0 -> fits E fid mid T ms ->
  build_type E fid mid mdom a d ms = Ok t ->
  exists M' h, create_block E fid mid T mdom a d ms M = Ok (M', h) /\ buffer_of T M M' h t.
Proof. intros E fid mid T mdom a d ms M t A F B. pose proof (create_block_ok E fid mid T A mdom a d ms M F) as H. now rewrite B in H. Qed.
Print Assumptions C78_buffer.

Theorem C78_throws : forall E fid mid T mdom a d ms M e, T mod 8 = 0 -> fits E fid mid T ms ->
  build_type E fid mid mdom a d ms = Throw e -> create_block E fid mid T mdom a d ms M = Throw e.
Proof. intros E fid mid T mdom a d ms M e A F B. pose proof (create_block_ok E fid mid T A mdom a d ms M F) as H. now rewrite B in H. Qed.
Print Assumptions C78_throws.

(** Mixins 2, 0 and 1 in a world: 5 feature ids and 6 features of mixins, the first feature has three payloads, two of them
    with the top bid. *)
Definition ex_buf (M : bmem) (h : thdr) :=
  (map (mem_mixin M h) [0; 1; 2]%nat, map (mem_offset M h) [0; 1; 2]%nat,
   map (fun m => mem_index_of M h (w_mid ex_mw m)) [0; 1; 2; 5]%nat, map (fun f => mem_ftable_at M h (w_fid ex_mw f)) [0; 1; 3]%nat).
Definition ex_made : res (bmem * thdr) := create_block ex_env (w_fid ex_mw) (w_mid ex_mw) 128 (w_mdom ex_mw) true 0%nat [2; 0; 1]%nat (fun _ => None).
Lemma fits_check E fid mid T ms F S :
  forallb (fun m => forallb (fun f => match fid (ff_info f) with Some k => k <? F | None => true end) (m_features (e_mixin E m)))%nat ms = true ->
  forallb (fun m => match mid m with Some k => k <? S | None => true end)%nat ms = true ->
  T + N.of_nat F * 24 + N.of_nat (length (flat_map (fun m => m_features (e_mixin E m)) ms)) * 24 + N.of_nat (length ms) * 12 + N.of_nat S * 4 < 4294967296 ->
  fits E fid mid T ms.
Proof.
  intros A B C. exists F, S. split; [|split; [|exact C]].
  - intros m f k Hm Hf Hk. rewrite forallb_forall in A. apply A in Hm. rewrite forallb_forall in Hm. apply Hm in Hf. rewrite Hk in Hf. now apply Nat.ltb_lt.
  - intros m k Hm Hk. rewrite forallb_forall in B. apply B in Hm. rewrite Hk in Hm. now apply Nat.ltb_lt.
Qed.
Example C78_example : fits ex_env (w_fid ex_mw) (w_mid ex_mw) 128 [2; 0; 1]%nat /\
  is_ok (build_type ex_env (w_fid ex_mw) (w_mid ex_mw) (w_mdom ex_mw) true 0%nat [2; 0; 1]%nat) /\
  build_type ex_env (w_fid ex_mw) (w_mid ex_mw) (w_mdom ex_mw) true 0%nat [2; 2]%nat = Throw EDuplicateMixin /\
  match ex_made with Ok (M, h) => Some (ex_buf M h, h_buf_size h, mem_payload M h 272) | _ => None end =
    Some ([Ok 2; Ok 0; Ok 1]%nat, [Ok 0; Ok 56; Ok 80], [Ok (Some 1%nat); Ok (Some 2%nat); Ok (Some 0%nat); Ok None],
          [Ok (Some (248, 272, 320)); Ok (Some (368, 368, 392)); Ok None], 440, Ok {| fp_mixin := 2; fp_payload := 12; fp_data := ex_ff 0 12 1 0 |}).
Proof.
  split; [apply (fits_check _ _ _ _ _ 8 8); vm_compute; reflexivity|]. split; [vm_compute; exact Logic.I|]. split; [vm_compute; reflexivity|].
  vm_compute. reflexivity.
Qed.

(** The bound is needed: for a mixin whose id is 2^30 - 1 (after so many registrations), the size of the table of indices is
    2^32 bytes, computed as 0, and the table is written behind the end of the buffer. *)
Theorem C78_wide : exists E fid mid T mdom d ms t, T mod 8 = 0 /\ build_type E fid mid mdom true d ms = Ok t /\
  length ms = 1%nat /\ (forall m, m_features (e_mixin E m) = []) /\ (forall m k, mid m = Some k -> N.of_nat k < 1073741824) /\
  forall M, create_block E fid mid T mdom true d ms M = Ub UbOutOfBounds.
Proof. exact wide_block. Qed.
Print Assumptions C78_wide.
