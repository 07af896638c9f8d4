(** C32: FBX layer data set on a geometry can be read back. *)
From Coq Require Import List ZArith Bool Lia.
From Verif Require Import Model.Codec Model.Fbx Model.FbxDoc Spec.FbxDocSpec Proofs.FbxDocProofs.
Import ListNotations.
Open Scope Z_scope.

(** The claim. *)
Definition C32_full : Prop := forall kids,
  (forall mat mapping kids', set_materials kids mat mapping = Some kids' ->
     exists n, layer_array kids' material_el materials_name = Some n /\ node_attrs n = [AI32s mat]) /\
  (forall uv idx mapping kids', set_uvs kids uv idx mapping = Some kids' ->
     exists n, layer_array kids' uv_el uv_name = Some n /\ node_attrs n = [AF32s (flat_map (fun '(u, v) => [u; v]) uv)]) /\
  (forall ns mapping kids', set_normals kids ns mapping = Some kids' ->
     exists n, layer_array kids' normal_el normals_name = Some n /\
       node_attrs n = [AF32s (flat_map (fun '(x, y, z) => [x; y; z]) ns)]).

(** It never holds: the setters store an empty element, for every geometry and all values, and
    erase what was there. *)
Theorem C32_values_lost : forall kids kids',
  (forall mat mapping, set_materials kids mat mapping = Some kids' -> forall arr, layer_array kids' material_el arr = None) /\
  (forall ns mapping, set_normals kids ns mapping = Some kids' -> forall arr, layer_array kids' normal_el arr = None).
Proof. exact layer_lost. Qed.
Print Assumptions C32_values_lost.

(** Setting texture coordinates empties the normals and leaves the texture coordinates. *)
Theorem C32_uv_overwrites_normals : forall kids kids' uv idx mapping, set_uvs kids uv idx mapping = Some kids' ->
  (forall arr, layer_array kids' normal_el arr = None) /\
  (forall arr, layer_array kids' uv_el arr = layer_array kids uv_el arr).
Proof. exact uv_wrong. Qed.
Print Assumptions C32_uv_overwrites_normals.

Theorem C32_layers_refuted : ~ C32_full.
Proof.
  intros H. destruct (H (new_geometry [(0, 0, 0)] [[0]])) as (A & _).
  destruct (A [1] [66] _ eq_refl) as (n & E & _). vm_compute in E. discriminate.
Qed.
Print Assumptions C32_layers_refuted.

(** The setters do store an element and list it in the layer. *)
Example C32_example : exists kids', set_materials (new_geometry [(0, 0, 0)] [[0]]) [1] [66] = Some kids' /\
  find_child material_el kids' = Some (Node material_el [AInt 0] []) /\
  find_child layer_name kids' = Some (Node layer_name [AInt 0]
    [Node le_name [] [Node type_name [AStr material_el] []; Node tindex_name [AInt 0] []]]).
Proof. eexists. split; [vm_compute; reflexivity|]. vm_compute. auto. Qed.
