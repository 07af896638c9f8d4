(** C62: FBX text files mean the same whatever their first comment says. *)
From Coq Require Import List ZArith Bool Lia.
From Verif Require Import Model.Codec Model.Fbx Model.FbxText Spec.FbxTextSpec.
From Verif Require Import Proofs.FbxTextProofs Proofs.FbxTextTop.
Import ListNotations.
Open Scope Z_scope.

(** The claim: replacing the text of the comment on the first line changes nothing. *)
Definition C62_full : Prop :=
  forall parse_float to_i32 seek inflate c1 c2 body,
    ~ In 10 c1 -> ~ In 10 c2 ->
    let file c := 59 :: c ++ 10 :: body in
    (21 <= length (file c1))%nat -> (21 <= length (file c2))%nat ->
    parse_any parse_float to_i32 seek inflate (file c1) = parse_any parse_float to_i32 seek inflate (file c2).

(** It holds between comments of at least twenty characters. *)
Theorem C62_comment_partial : forall parse_float to_i32 seek inflate c1 c2 body,
  ~ In 10 c1 -> ~ In 10 c2 -> (20 <= length c1)%nat -> (20 <= length c2)%nat ->
  parse_any parse_float to_i32 seek inflate (59 :: c1 ++ 10 :: body) =
  parse_any parse_float to_i32 seek inflate (59 :: c2 ++ 10 :: body).
Proof. exact (fun pf ti => comment_free pf ti show show). Qed.
Print Assumptions C62_comment_partial.

(** With a shorter one the parser puts characters back behind the rest of the 21 bytes it was
    handed, and well-formed files are rejected or misread. *)
Definition body1 : bytes := [65; 66; 58; 32; 49; 10; 67; 58; 32; 50; 51; 44; 32; 52; 53; 44; 32; 54; 55; 10].
Definition tree1 : node :=
  Node root_name [] [Node [65; 66] [AI64 1] []; Node [67] [AI64 23; AI64 45; AI64 67] []].
Theorem C62_short_rejected : forall parse_float to_i32 seek inflate,
  parse_any parse_float to_i32 seek inflate (59 :: [] ++ 10 :: body1) = FErr.
Proof. intros. vm_compute. reflexivity. Qed.
Print Assumptions C62_short_rejected.

Example C62_long_accepted : forall parse_float to_i32 seek inflate,
  parse_any parse_float to_i32 seek inflate (59 :: repeat 45 20 ++ 10 :: body1) = FTree tree1.
Proof. intros. vm_compute. reflexivity. Qed.

(** Misread without an error: two nodes become one. *)
Definition body2 : bytes := [65; 32; 58; 32; 53; 10; 66; 32; 58; 32; 54; 10] ++ repeat 10 20.
Theorem C62_short_misread : forall parse_float to_i32 seek inflate,
  parse_any parse_float to_i32 seek inflate (59 :: [] ++ 10 :: body2) =
    FTree (Node root_name [] [Node [65] [AI64 5; AI64 6] []]) /\
  parse_any parse_float to_i32 seek inflate (59 :: repeat 45 20 ++ 10 :: body2) =
    FTree (Node root_name [] [Node [65] [AI64 5] []; Node [66] [AI64 6] []]).
Proof. intros. split; vm_compute; reflexivity. Qed.
Print Assumptions C62_short_misread.

Theorem C62_comment_refuted : ~ C62_full.
Proof.
  intros H.
  specialize (H (fun _ => (0, true)) (fun z => z) None (fun _ _ => (0, InfHeader)) [] (repeat 45 20) body1).
  cbn zeta in H. rewrite C62_short_rejected, C62_long_accepted in H.
  discriminate H; [intros []|cbn; intuition discriminate|cbn; lia|cbn; lia].
Qed.
Print Assumptions C62_comment_refuted.
