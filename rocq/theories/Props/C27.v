(** C27: FBX parsing does not depend on the reader supporting Seek: refuted. *)
From Coq Require Import List ZArith Bool.
From Verif.Model Require Import Codec Fbx.
From Verif.Spec Require Import FbxSpec.
From Verif.Proofs Require Import FbxProofs FbxLayout.
Import ListNotations.
Open Scope Z_scope.

(** What does hold: files all of whose compressed arrays (if any) the decompressor consumes to
    their last byte read the same from a plain stream and from a file. *)
Theorem C27_stream_partial : forall inflate m ver kids data,
  file_at (unpacks None inflate) ver kids data -> len data <= m ->
  parse_fbx None inflate data = FTree (tree_of kids) /\
  parse_fbx (Some m) inflate data = parse_fbx None inflate data.
Proof.
  intros inflate m ver kids data H Hm. destruct (parse_both inflate m ver kids data H Hm) as (A & B).
  split; [exact A|]. rewrite A. exact B.
Qed.
Print Assumptions C27_stream_partial.

(** A decompressor that returns after the data, before the 13 trailing bytes of the stream. *)
Definition lazy_inflate (p : bytes) (want : Z) : Z * infl := (2 + want, InfOk (takeZ want (skipZ 2 p))).
Definition payload : bytes := [120; 156; 1; 2; 9; 9; 9; 9; 9; 9; 9; 9; 9; 9; 9; 9; 9].
Definition kid_a : bytes :=
  le 4 85 ++ le 4 1 ++ le 4 30 ++ le 1 1 ++ [65] ++ ((98 :: le 4 2 ++ le 4 1 ++ le 4 17 ++ payload) ++ []) ++ [] ++ [].
Definition kid_b : bytes := le 4 99 ++ le 4 0 ++ le 4 0 ++ le 1 1 ++ [66] ++ [] ++ [] ++ [].
Definition top : bytes :=
  le 4 112 ++ le 4 0 ++ le 4 0 ++ le 1 1 ++ [80] ++ [] ++ (kid_a ++ kid_b ++ []) ++ null_record false.
Definition data : bytes := file_head [26; 0] 7400 ++ (top ++ []) ++ [].
Definition kids : list node := [Node [80] [] [Node [65] [AI8s [1; 2]] []; Node [66] [] []]].

(** The same valid file: read correctly from disk, an error from a stream. *)
Theorem C27_stream_refuted : exists inflate m ver kids data,
  file_at (unpacks (Some m) inflate) ver kids data /\ len data <= m /\
  parse_fbx (Some m) inflate data = FTree (tree_of kids) /\
  parse_fbx None inflate data = FErr.
Proof.
  exists lazy_inflate, 1000000, 7400, kids, data.
  split; [|split; [vm_compute; discriminate|split; vm_compute; reflexivity]].
  assert (F : forall k v, 0 <= v -> v < 256 ^ Z.of_nat k -> fits_u k v) by (intros; split; assumption).
  unfold data, kids. apply fa_file; [reflexivity|apply F; [discriminate|reflexivity]| |left; reflexivity].
  change (7500 <=? 7400) with false. apply nas_cons; [|apply nas_nil].
  apply (na_node _ false 27 [80] [] _ [] (kid_a ++ kid_b ++ []) (null_record false) 112); [reflexivity|apply ats_nil| |right; reflexivity|reflexivity|split; [discriminate|reflexivity]].
  apply nas_cons; [|apply nas_cons; [|apply nas_nil]].
  - apply (na_node _ false 41 [65] [AI8s [1; 2]] [] ((98 :: le 4 2 ++ le 4 1 ++ le 4 17 ++ payload) ++ []) [] [] 85); [reflexivity| |apply nas_nil|left; reflexivity|reflexivity|split; [discriminate|reflexivity]].
    apply ats_cons; [|apply ats_nil].
    apply (at_zip _ (AI8s [1; 2]) 98 1 [1; 2] (fits_s 1) payload); [reflexivity|apply F; [discriminate|reflexivity]| |apply F; [discriminate|reflexivity]|].
    + repeat constructor; discriminate.
    + exists 4. split; [reflexivity|exact I].
  - apply (na_node _ false 85 [66] [] [] [] [] [] 99); [reflexivity|apply ats_nil|apply nas_nil|left; reflexivity|reflexivity|split; [discriminate|reflexivity]].
Qed.
Print Assumptions C27_stream_refuted.
