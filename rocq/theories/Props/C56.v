(** C56: loading a PMD file never crashes: refuted. *)
From Coq Require Import List ZArith Bool.
From Verif.Model Require Import Num Vec Codec Pmx Pmd.
From Verif.Spec Require Import PmxSpec VmdSpec PmdSpec.
From Verif.Proofs Require Import PmdProofs.
From Verif.Props Require Import C55.
Import ListNotations.
Open Scope Z_scope.

(** A file with an IK entry for a bone that does not exist, or with a morph vertex beyond the
    base morph, always crashes the loader... *)
Theorem C56_out_of_range_crashes : forall sjis fdiv100 fsub1 fofu8 flt1 w rest utf16, pmd_fits w -> ~ pmd_indexed w ->
  parse_mmd sjis fdiv100 fsub1 fofu8 flt1 utf16 (pmd_bytes w ++ rest) = RPanic.
Proof. exact pmd_panics. Qed.
Print Assumptions C56_out_of_range_crashes.

(** ...and such files exist: here the position -1 in a morph. *)
Definition bad : pmd :=
  mkPmd 1065353216 [109] (repeat 0 18) [] (repeat 0 255) [] [] [] [] []
    (Some (mkPO [98] (repeat 0 18) 0 [], [ mkPO [109] (repeat 0 18) 3 [(-1, mkV3 1 2 3)] ])).
Theorem C56_no_crash_refuted : exists w, pmd_fits w /\ forall sjis fdiv100 fsub1 fofu8 flt1 utf16,
  parse_mmd sjis fdiv100 fsub1 fofu8 flt1 utf16 (pmd_bytes w) = RPanic.
Proof.
  exists bad. assert (F : pmd_fits bad).
  { unfold pmd_fits, bad, field_ok; cbn [p_version p_name p_njunk p_comment p_cjunk p_vertices p_faces p_materials p_bones p_iks p_morphs];
    repeat match goal with
    | |- _ /\ _ => split
    | |- Forall _ _ => apply Forall_cons || apply Forall_nil
    | |- po_ok _ => unfold po_ok | |- field_ok _ _ _ => unfold field_ok
    | |- ~ _ => cbn; intuition discriminate
    | |- _ = true => reflexivity
    | |- (_ <= _)%nat => vm_compute; repeat constructor
    | |- _ => progress cbn
    end. }
  split; [exact F|]. intros. rewrite <- (app_nil_r (pmd_bytes bad)). apply C56_out_of_range_crashes; [exact F|].
  intros [_ H]. cbn in H. inversion_clear H as [|? ? H1 _]. unfold po_in in H1. cbn in H1. inversion_clear H1 as [|? ? [H2 _] _]. now apply H2.
Qed.
Print Assumptions C56_no_crash_refuted.

(** Files with all indices in range load (C55). *)
Theorem C56_in_range_partial : forall sjis fdiv100 fsub1 fofu8 flt1 w rest utf16, pmd_fits w -> pmd_indexed w ->
  exists d, parse_mmd sjis fdiv100 fsub1 fofu8 flt1 utf16 (pmd_bytes w ++ rest) = ROk d rest.
Proof. intros. destruct (pmd_decodes sjis fdiv100 fsub1 fofu8 flt1 w rest utf16) as (d & E & _); eauto. Qed.
Print Assumptions C56_in_range_partial.
Example C56_example : exists d, parse_mmd (fun b => b) (fun w => w) (fun w => w) (fun w => w) (fun w => w =? 0) (fun b => b) (pmd_bytes model ++ [1; 2]) = ROk d [1; 2].
Proof. apply C56_in_range_partial; apply C55_example_hyp. Qed.
