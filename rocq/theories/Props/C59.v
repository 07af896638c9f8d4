(** C59: the footer after the last node is ignored: refuted for large and for 64-bit files. *)
From Coq Require Import List ZArith Bool Lia.
From Verif.Model Require Import Codec Fbx.
From Verif.Spec Require Import FbxSpec.
From Verif.Proofs Require Import FbxProofs FbxLayout.
Import ListNotations.
Open Scope Z_scope.

(** Where the parser, taking the footer for a node record, wants to continue. *)
Definition narrow_end : Z := 162249978.
Definition wide_end : Z := 7409768082772311290.
Definition versions32 : list Z := [7100; 7200; 7300; 7400].
Definition versions64 : list Z := [7500; 7600; 7700].

(** 32-bit files up to about 162 MB. *)
Theorem C59_footer_narrow_partial : forall m inflate ver kids data pad,
  In ver versions32 -> file_at (unpacks (Some m) inflate) ver kids data -> (1 <= pad <= 16)%nat ->
  narrow_end <= m -> len data + len (footer pad ver) <= narrow_end ->
  parse_fbx (Some m) inflate (data ++ footer pad ver) = FTree (tree_of kids).
Proof.
  intros m inflate ver kids data pad Hv Hf Hp Hm Hl.
  assert (E : foot_end ver = narrow_end) by (cbn in Hv; intuition subst; reflexivity).
  apply (footer_ignored (Some m) inflate ver kids data pad); auto; rewrite ?E; auto.
  cbn in Hv |- *. intuition auto.
Qed.
Print Assumptions C59_footer_narrow_partial.

(** Larger ones are rejected, footer and all. *)
Theorem C59_large_rejected : forall m inflate ver kids data pad,
  In ver versions32 -> file_at (unpacks (Some m) inflate) ver kids data -> (1 <= pad <= 16)%nat ->
  len data <= m -> narrow_end <= len data ->
  parse_fbx (Some m) inflate data = FTree (tree_of kids) /\
  parse_fbx (Some m) inflate (data ++ footer pad ver) = FErr.
Proof.
  intros m inflate ver kids data pad Hv Hf Hp Hm Hl. split; [exact (parse_file (Some m) inflate ver kids data Hf Hm)|].
  assert (E : foot_end ver = narrow_end) by (cbn in Hv; intuition subst; reflexivity).
  apply (footer_rejected (Some m) inflate ver kids data pad); auto; [|left; rewrite E; exact Hl].
  cbn in Hv |- *. intuition auto.
Qed.
Print Assumptions C59_large_rejected.

(** 64-bit files of any size are rejected when the file system refuses to seek to 7.4e18. *)
Theorem C59_wide_rejected : forall m inflate ver kids data pad,
  In ver versions64 -> file_at (unpacks (Some m) inflate) ver kids data -> (1 <= pad <= 16)%nat ->
  len data <= m -> m < wide_end ->
  parse_fbx (Some m) inflate data = FTree (tree_of kids) /\
  parse_fbx (Some m) inflate (data ++ footer pad ver) = FErr.
Proof.
  intros m inflate ver kids data pad Hv Hf Hp Hm Hl. split; [exact (parse_file (Some m) inflate ver kids data Hf Hm)|].
  assert (E : foot_end ver = wide_end) by (cbn in Hv; intuition subst; reflexivity).
  apply (footer_rejected (Some m) inflate ver kids data pad); auto; [|right; exists m; rewrite E; auto].
  cbn in Hv |- *. intuition auto.
Qed.
Print Assumptions C59_wide_rejected.

(** They are accepted where such offsets are allowed. *)
Theorem C59_footer_wide_partial : forall m inflate ver kids data pad,
  In ver versions64 -> file_at (unpacks (Some m) inflate) ver kids data -> (1 <= pad <= 16)%nat ->
  wide_end <= m -> len data + len (footer pad ver) <= wide_end ->
  parse_fbx (Some m) inflate (data ++ footer pad ver) = FTree (tree_of kids).
Proof.
  intros m inflate ver kids data pad Hv Hf Hp Hm Hl.
  assert (E : foot_end ver = wide_end) by (cbn in Hv; intuition subst; reflexivity).
  apply (footer_ignored (Some m) inflate ver kids data pad); auto; rewrite ?E; auto.
  cbn in Hv |- *. intuition auto.
Qed.
Print Assumptions C59_footer_wide_partial.

(** The hypotheses are met: a small 64-bit file, on a file system with offsets below 2^44, and the
    32-bit form of the same tree. *)
Definition sample : list node := [Node [65] [AI32 1; AStr [98]] [Node [66] [AF32s [0; 1]] []]].
Example C59_example_hyp : forall packed, file_at packed 7500 sample (lay_file [26; 0] 7500 sample).
Proof.
  intros. apply lay_file_ok; [reflexivity|split; [discriminate|reflexivity]| |vm_compute; reflexivity].
  repeat constructor; vm_compute; try reflexivity; try discriminate.
Qed.
Theorem C59_footer_refuted : exists m inflate ver kids data pad,
  file_at (unpacks (Some m) inflate) ver kids data /\ len (data ++ footer pad ver) <= m /\
  (len data + 20 + Z.of_nat pad) mod 16 = 0 /\
  parse_fbx (Some m) inflate data = FTree (tree_of kids) /\
  parse_fbx (Some m) inflate (data ++ footer pad ver) = FErr.
Proof.
  exists (2 ^ 44), (fun _ _ => (0, InfHeader)), 7500, sample, (lay_file [26; 0] 7500 sample), 11%nat.
  split; [apply C59_example_hyp|]. split; [vm_compute; discriminate|]. split; [vm_compute; reflexivity|].
  split; vm_compute; reflexivity.
Qed.
Print Assumptions C59_footer_refuted.
Example C59_example_wide :
  parse_fbx (Some (2 ^ 44)) (fun _ _ => (0, InfHeader)) (lay_file [26; 0] 7500 sample ++ footer 7 7500) = FErr.
Proof. vm_compute. reflexivity. Qed.
Example C59_example_narrow :
  parse_fbx (Some (2 ^ 44)) (fun _ _ => (0, InfHeader)) (lay_file [26; 0] 7400 sample ++ footer 7 7400) = FTree (tree_of sample).
Proof. vm_compute. reflexivity. Qed.
