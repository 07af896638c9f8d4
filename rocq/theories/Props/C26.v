(** C26: binary FBX node trees are decoded exactly. *)
From Coq Require Import List ZArith Bool.
From Verif.Model Require Import Codec Fbx.
From Verif.Spec Require Import FbxSpec.
From Verif.Proofs Require Import FbxProofs FbxLayout.
Import ListNotations.
Open Scope Z_scope.

(** Reading, from a file that allows seeking to its own end, the bytes laid out for any list of
    top-level nodes returns exactly those nodes.  Arrays may be stored raw or as a zlib stream the
    decompressor understands. *)
Theorem C26_tree_exact : forall m inflate ver kids data,
  file_at (unpacks (Some m) inflate) ver kids data -> len data <= m ->
  parse_fbx (Some m) inflate data = FTree (tree_of kids).
Proof. intros m inflate ver kids data H Hm. exact (parse_file (Some m) inflate ver kids data H Hm). Qed.
Print Assumptions C26_tree_exact.

(** The layout relation is not empty: every tree within the format's limits has one, in either
    width, as long as the file stays below 4 GiB. *)
Theorem C26_every_tree : forall packed ver kids,
  fits_u 4 ver -> Forall tree_ok kids -> len (lay_file [26; 0] ver kids) < 2 ^ 32 ->
  file_at packed ver kids (lay_file [26; 0] ver kids).
Proof. intros packed ver kids. exact (lay_file_ok packed [26; 0] ver kids eq_refl). Qed.
Print Assumptions C26_every_tree.

(** Two different trees are never laid out as the same bytes. *)
Theorem C26_unambiguous : forall m inflate ver1 ver2 kids1 kids2 data,
  file_at (unpacks (Some m) inflate) ver1 kids1 data -> file_at (unpacks (Some m) inflate) ver2 kids2 data ->
  len data <= m -> kids1 = kids2.
Proof.
  intros m inflate ver1 ver2 kids1 kids2 data H1 H2 Hm.
  pose proof (C26_tree_exact _ _ _ _ _ H1 Hm) as E1. rewrite (C26_tree_exact _ _ _ _ _ H2 Hm) in E1.
  injection E1 as E. symmetry. exact E.
Qed.
Print Assumptions C26_unambiguous.

Definition sample : list node :=
  [Node [79; 98; 106] [AI64 (-5); AStr [97; 0; 1; 98]; AI8 (-1); AU8 200]
     [Node [86] [AF64s [4607182418800017408; 0]; AI32s [0; 1; -3]] [];
      Node [80; 55; 48] [] [Node [80] [AStr []; AF32 1065353216; ARaw [1; 2; 3]; AI16 (-300)] []]];
   Node [67] [AI32 7; AF64 0; AI8s [-1]; AI16s [256]; AI64s [-1]; AF32s [1]] []].
Example C26_example_hyp : Forall tree_ok sample.
Proof. unfold sample. repeat constructor; vm_compute; try reflexivity; try discriminate. Qed.
Example C26_example_narrow : parse_fbx (Some 100000) (fun _ _ => (0, InfHeader)) (lay_file [26; 0] 7400 sample) = FTree (tree_of sample).
Proof. vm_compute. reflexivity. Qed.
Example C26_example_wide : parse_fbx (Some 100000) (fun _ _ => (0, InfHeader)) (lay_file [26; 0] 7500 sample) = FTree (tree_of sample).
Proof. vm_compute. reflexivity. Qed.
