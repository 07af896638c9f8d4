(** C58: a loaded model can be saved: refuted for PMD files. *)
From Coq Require Import List ZArith Bool.
From Verif.Model Require Import Num Vec Codec Pmx Pmd.
From Verif.Spec Require Import PmxSpec VmdSpec PmdSpec.
From Verif.Proofs Require Import CodecLemmas PmxProofs PmdProofs.
From Verif.Props Require Import C19 C55.
Import ListNotations.
Open Scope Z_scope.

(** [WritePMX] crashes on every model loaded from a PMD file, because [Header.Info] is empty. *)
Theorem C58_pmd_crashes : forall sjis fdiv100 fsub1 fofu8 flt1 utf16 bs d rest,
  parse_mmd sjis fdiv100 fsub1 fofu8 flt1 utf16 (pmd_magic ++ bs) = ROk d rest -> write_pmx d = None.
Proof. exact pmd_unsaveable. Qed.
Print Assumptions C58_pmd_crashes.

Theorem C58_save_refuted : exists bs, forall sjis fdiv100 fsub1 fofu8 flt1 utf16, exists d rest,
  parse_mmd sjis fdiv100 fsub1 fofu8 flt1 utf16 bs = ROk d rest /\ write_pmx d = None.
Proof.
  exists (pmd_bytes model). intros. destruct (pmd_decodes sjis fdiv100 fsub1 fofu8 flt1 model [] utf16) as (d & E & _); try apply C55_example_hyp.
  exists d, []. rewrite app_nil_r in E. split; [exact E|]. rewrite pmd_bytes_split in E. eapply pmd_unsaveable. exact E.
Qed.
Print Assumptions C58_save_refuted.

(** Models loaded from PMX files with a complete header can be saved. *)
Theorem C58_pmx_partial : forall utf16 fsub1 bs d rest,
  Forall byte bs -> parse utf16 fsub1 bs = ROk d rest ->
  (8 <= length (h_info (d_header d)))%nat ->
  (wd (d_header d) AttrStringEncoding <> 0 \/ forall b, str_ok (utf16 b) = true) -> joint_widths_agree d ->
  exists bs', write_pmx d = Some bs'.
Proof. intros. destruct (pmx_resave utf16 fsub1 bs d rest) as (bs' & E & _); eauto. Qed.
Print Assumptions C58_pmx_partial.
Example C58_pmx_example :
  match write_pmx ex_doc with
  | Some bs => match parse (fun b => b) ex_fsub1 bs with ROk d _ => match write_pmx d with Some b => (0 <? Z.of_nat (length b)) = true | None => False end | _ => False end
  | None => False
  end.
Proof. vm_compute. reflexivity. Qed.
