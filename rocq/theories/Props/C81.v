(** C81: which file is written. *)
From Coq Require Import String Ascii List ZArith Bool Lia.
From Verif.Model Require Import Cli.
From Verif.Spec Require Import CliSpec.
From Verif.Proofs Require Import CliProofs CliNames.
Import ListNotations.
Local Open Scope string_scope.
Local Open Scope list_scope.

(** Without an output argument and format, the result is written beside the input with another extension, in a format that can be written; never over the input. *)
Theorem C81_default : forall stem e, is_extension (stem ++ e) e ->
  exists j, make_job "" [(stem ++ e)%string] = Some j /\ jInputs j = [(stem ++ e)%string] /\ jInputExt j = lower e /\
    jOutputExt j = (if existsb (String.eqb (lower e)) [".mqo"; ".mqoz"] then ".glb" else ".mqo") /\ jOutput j = (stem ++ jOutputExt j)%string /\
    jOutput j <> (stem ++ e)%string /\ (can_load (lower e) = true -> can_save (jInputExt j) (jOutputExt j) = true).
Proof.
  intros stem e H. unfold make_job. rewrite <- (extension_unique _ _ _ H (ext_is _)). eexists. split; [reflexivity|]. cbn [jInputs jInputExt jOutputExt jOutput].
  cbn [String.eqb Ascii.eqb Bool.eqb]. rewrite stem_eq. split; [reflexivity|]. split; [reflexivity|]. split; [reflexivity|]. split; [reflexivity|]. unfold default_output_ext. fold (is_mqo (lower e)). split.
  - intros E. apply app_inj_l in E. destruct (is_mqo (lower e)) eqn:M; rewrite <- E in M; vm_compute in M; discriminate.
  - intros L. unfold can_save. rewrite L. destruct (is_mqo (lower e)); reflexivity.
Qed.
Print Assumptions C81_default.
(** With a format but no output argument: beside the input, with the format as its extension. It is the input itself exactly if that has the extension already. *)
Theorem C81_format_partial : forall stem e c f, is_extension (stem ++ e) e ->
  exists j, make_job (String c f) [(stem ++ e)%string] = Some j /\ jInputs j = [(stem ++ e)%string] /\ jOutputExt j = String "." (String c f) /\ jOutput j = (stem ++ String "." (String c f))%string /\
    (jOutput j = (stem ++ e)%string <-> e = String "." (String c f)).
Proof.
  intros stem e c f H. unfold make_job. rewrite <- (extension_unique _ _ _ H (ext_is _)). eexists. split; [reflexivity|]. cbn [jInputs jInputExt jOutputExt jOutput].
  cbn [String.eqb Ascii.eqb Bool.eqb]. rewrite stem_eq. split; [reflexivity|]. split; [reflexivity|]. split; [reflexivity|]. split; [intros E; apply app_inj_l in E; congruence|intros ->; reflexivity].
Qed.
Print Assumptions C81_format_partial.
(** With several arguments, the last is the output and the others are inputs; the format is the one given, else that of the output's name. *)
Theorem C81_output : forall format inputs output, inputs <> [] ->
  exists j, make_job format (inputs ++ [output]) = Some j /\ jOutput j = output /\ jInputs j = inputs /\
    (format <> "" -> jOutputExt j = String "." format) /\ (format = "" -> exists e, is_extension output e /\ jOutputExt j = lower e).
Proof.
  intros format [|i inputs] output N; [contradiction|]. cbn [app make_job]. destruct (inputs ++ [output]) as [|x l] eqn:E; [destruct inputs; discriminate|]. eexists. split; [reflexivity|]. cbn [jOutput jInputs jOutputExt].
  assert (E' : i :: x :: l = (i :: inputs) ++ [output]) by (cbn; rewrite E; reflexivity). rewrite E'. rewrite last_last, removelast_last. split; [reflexivity|]. split; [reflexivity|]. split.
  - intros F. destruct format; [contradiction|]. reflexivity.
  - intros ->. exists (ext output). split; [apply ext_is|reflexivity].
Qed.
Print Assumptions C81_output.
(** Extensions are recognised however they are written. *)
Lemma lower_capital c d : capital_of c d -> lower_ascii d = c.
Proof.
  intros (i & E1 & E2). do 26 (destruct i as [|i]; [cbn in E1, E2; injection E1 as <-; injection E2 as <-; reflexivity|]). cbn in E1. destruct i; discriminate.
Qed.
Lemma lower_written w e : written w e -> lower e = e -> lower w = e.
Proof.
  intros H. induction H as [|c w e _ IH|c d w e C _ IH]; intros L; [reflexivity| |]; cbn in L |- *; injection L as L1 L2.
  - rewrite L1, (IH L2). reflexivity.
  - rewrite (lower_capital c d C), (IH L2). reflexivity.
Qed.
Theorem C81_case : forall stem w e, In e known_formats -> is_extension (stem ++ w) w -> written w e ->
  exists j, make_job "" [(stem ++ w)%string] = Some j /\ jInputExt j = e /\ jOutput j = (stem ++ if existsb (String.eqb e) [".mqo"; ".mqoz"] then ".glb" else ".mqo")%string /\ can_save (jInputExt j) (jOutputExt j) = true.
Proof.
  intros stem w e He H Hw. destruct (C81_default stem w H) as (j & E & _ & E2 & E3 & E4 & _ & E6). assert (Le : lower e = e) by (cbn in He; repeat (destruct He as [<-|He]; [reflexivity|]); destruct He).
  rewrite (lower_written _ _ Hw Le) in *. exists j. split; [exact E|]. split; [exact E2|]. split; [rewrite E4, E3; reflexivity|]. apply E6. cbn in He; repeat (destruct He as [<-|He]; [reflexivity|]); destruct He.
Qed.
Print Assumptions C81_case.
Example C81_case_example : is_extension "a.MqoZ" ".MqoZ" /\ written ".MqoZ" ".mqoz".
Proof.
  split; [exact (ext_is "a.MqoZ")|]. apply written_same, written_capital; [exists 12%nat; split; reflexivity|]. apply written_same, written_same, written_capital; [exists 25%nat; split; reflexivity|constructor].
Qed.
(** Refuted: an input is overwritten: the model itself with -format, and a motion that is given after it. *)
Theorem C81_overwrite_refuted :
  (exists j, make_job "mqo" ["dir.d/a.mqo"] = Some j /\ jOutput j = "dir.d/a.mqo" /\ can_save (jInputExt j) (jOutputExt j) = true) /\
  (exists j, make_job "glb" ["a.pmx"; "walk.vmd"] = Some j /\ jOutput j = "walk.vmd" /\ can_save (jInputExt j) (jOutputExt j) = true).
Proof. split; eexists; (split; [reflexivity|split; reflexivity]). Qed.
Print Assumptions C81_overwrite_refuted.

Example C81_example : make_job "" ["my.models/Alice.PMX"] = Some (mkJob ".pmx" "my.models/Alice.mqo" ".mqo" ["my.models/Alice.PMX"]) /\
  make_job "" ["my.models/README"] = Some (mkJob "" "my.models/README.mqo" ".mqo" ["my.models/README"]) /\
  make_job "" ["a.mqo"; "b.vmd"; "c.Glb"] = Some (mkJob ".mqo" "c.Glb" ".glb" ["a.mqo"; "b.vmd"]) /\ make_job "" [] = None /\
  is_extension "my.models/Alice.PMX" ".PMX" /\ is_extension "my.models/README" "".
Proof.
  split; [reflexivity|]. split; [reflexivity|]. split; [reflexivity|]. split; [reflexivity|]. split; [exact (ext_is "my.models/Alice.PMX") | exact (ext_is "my.models/README")].
Qed.
