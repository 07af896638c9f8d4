(** C76: morph targets reach the blend shape groups. *)
From Coq Require Import String List ZArith Bool Lia.
From Verif.Model Require Import Num Vec VrmConfig.
From Verif.Spec Require Import VrmSpec.
From Verif.Proofs Require Import VrmBones VrmRest.
Import ListNotations.
Local Open Scope string_scope.
Local Open Scope list_scope.
Local Open Scope Z_scope.

(** With [exportAllMorph], every morph target of meshes made by this program is the only target of some group, whose name is its own or
    that of a mapping. *)
Theorem C76_all_partial : forall nodes meshes maps out, Forall (fun m => vmeTyped m = true) meshes -> apply_morphs true nodes meshes maps = Some out ->
  forall m i name, is_target meshes m i name -> exists g, In g out /\ bgBinds g = [(m, i)] /\ (bgName g = name \/ In (bgName g) (map mmName maps)).
Proof. exact morphs_all. Qed.
Print Assumptions C76_all_partial.
(** A mapping to a target name that exists gives a preset group for a target of that name. *)
Theorem C76_mapped_partial : forall all nodes meshes maps out, Forall (fun m => vmeTyped m = true) meshes -> apply_morphs all nodes meshes maps = Some out ->
  forall mp m i, In mp maps -> mmTarget mp <> ""%string -> is_target meshes m i (mmTarget mp) ->
  exists g m' i', In g out /\ bgName g = mmName mp /\ bgPreset g = mmName mp /\ bgBinds g = [(m', i')] /\ is_target meshes m' i' (mmTarget mp) /\ bgValues g = mmValues mp.
Proof. exact morphs_mapped. Qed.
Print Assumptions C76_mapped_partial.
(** All groups: those of the mappings in order, and with [exportAllMorph] one for each target that no mapping drives. *)
Theorem C76_groups : forall all nodes meshes maps out, apply_morphs all nodes meshes maps = Some out -> exists gss rest, out = concat gss ++ rest /\ Forall2 (groups_of nodes meshes) maps gss /\ (all = false -> rest = []) /\
  Forall (fun g => bgPreset g = ""%string /\ bgValues g = O /\ exists m i, bgBinds g = [(m, i)] /\ known_target meshes m i (bgName g) /\ forall g', In g' (concat gss) -> ~ drives g' m i) rest.
Proof. exact morphs_groups. Qed.
Print Assumptions C76_groups.
(** The program crashes exactly if a mapping names a node that has no mesh. *)
Theorem C76_crash : forall all nodes meshes maps, apply_morphs all nodes meshes maps = None <->
  exists mp id, In mp maps /\ mmTarget mp = ""%string /\ bone_node nodes (mmNode mp) id.
Proof. exact morphs_crash. Qed.
Print Assumptions C76_crash.

Definition C76_meshes : list vmesh := [mkVMesh true ["smile"; "blink"]%string; mkVMesh true ["blink"; "tears"]%string].
Example C76_example : apply_morphs true [mkVN "face" (Some 0%nat) []] C76_meshes [mkMM "joy" "" "smile" 0 0; mkMM "a" "face" "" 1 0; mkMM "fun" "" "none" 0 2; mkMM "sorrow" "" "blink" 0 0] =
  Some [mkBG "joy" "joy" [(0%nat, 0)] 0; mkBG "a" "a" [(0%nat, 1)] 0; mkBG "fun" "fun" [] 2; mkBG "sorrow" "sorrow" [(1%nat, 0)] 0; mkBG "tears" "" [(1%nat, 1)] 0].
Proof. reflexivity. Qed.

(** Refuted: the target names of a glTF file that was read are of another Go type; no mapping and no export finds them. *)
Theorem C76_loaded_refuted : exists meshes maps out m i, apply_morphs true [] meshes maps = Some out /\ is_target meshes m i "smile" /\ In (mkMM "joy" "" "smile" 0 0) maps /\ out = [].
Proof.
  exists [mkVMesh false ["smile"%string]], [mkMM "joy" "" "smile" 0 0], [], 0%nat, 0. split; [reflexivity|]. split; [exists (mkVMesh false ["smile"%string]); repeat split; lia|]. split; [left; reflexivity|reflexivity].
Qed.
Print Assumptions C76_loaded_refuted.
(** Refuted: a mapping to a name that several meshes have drives only one of them. *)
Theorem C76_several_refuted : exists meshes maps out, Forall (fun m => vmeTyped m = true) meshes /\ apply_morphs false [] meshes maps = Some out /\ maps = [mkMM "blink" "" "blink" 0 0] /\
  is_target meshes 0 1 "blink" /\ is_target meshes 1 0 "blink" /\ forall g, In g out -> ~ drives g 0 1.
Proof.
  exists C76_meshes, [mkMM "blink" "" "blink" 0 0], [mkBG "blink" "blink" [(1%nat, 0)] 0]. split; [repeat constructor|]. split; [reflexivity|]. split; [reflexivity|].
  split; [eexists; repeat split; lia|]. split; [eexists; repeat split; lia|]. intros g [<-|[]] [H|[]]. discriminate.
Qed.
Print Assumptions C76_several_refuted.
(** Refuted: it crashes. *)
Theorem C76_crash_refuted : exists nodes meshes maps, apply_morphs false nodes meshes maps = None.
Proof. exists [mkVN "head" None []], [], [mkMM "joy" "head" "" 0 0]. reflexivity. Qed.
Print Assumptions C76_crash_refuted.
