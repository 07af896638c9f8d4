(** C61: the FBX parsers stop on every input. *)
From Coq Require Import List ZArith Bool Lia.
From Verif.Model Require Import Codec Fbx FbxText.
From Verif.Spec Require Import FbxSpec.
From Verif.Proofs Require Import FbxProofs FbxTotal FbxTextTop.
Import ListNotations.
Open Scope Z_scope.

(** [FFuel] is the outcome the model gives when the nesting and loop counts together exceed the
    number of bytes of the input plus four; it never occurs, on any reader and with any decompressor. *)
Theorem C61_terminates : forall seek inflate data, parse_fbx seek inflate data <> FFuel.
Proof. exact parse_total. Qed.
Print Assumptions C61_terminates.

(** Node records that point into themselves or back to the start do not loop. *)
Definition loops : bytes := file_head [26; 0] 7400 ++ le 4 27 ++ le 4 0 ++ le 4 0 ++ le 1 0 ++ le 4 5 ++ le 4 0 ++ le 4 0 ++ le 1 0.
Example C61_backward : parse_fbx (Some 1000) (fun _ _ => (0, InfHeader)) loops = FErr.
Proof. vm_compute. reflexivity. Qed.

(** With the text parser included, for any float conversions. *)
Theorem C61_text_terminates : forall parse_float to_i32 seek inflate data,
  parse_any parse_float to_i32 seek inflate data <> FFuel.
Proof. exact (fun pf ti => any_total pf ti show show). Qed.
Print Assumptions C61_text_terminates.

(** Unclosed blocks, arrays and strings end in an error. *)
Example C61_unclosed : forall parse_float to_i32 seek inflate,
  parse_any parse_float to_i32 seek inflate (59 :: repeat 45 20 ++ [10; 65; 58; 32; 123; 10; 66; 58; 42; 50; 32; 123; 97; 58; 49; 44]) = FErr.
Proof. intros. vm_compute. reflexivity. Qed.
