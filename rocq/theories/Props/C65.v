(** C65: MQO to PMX keeps the skinning weights. *)
From Coq Require Import String List ZArith Bool Lia.
From Verif.Model Require Import Num Vec Matrix Mqo MqoDoc Mmd2Mqo Mqo2Mmd.
From Verif Require Import Spec.Mqo2MmdSpec Proofs.Mqo2MmdTop Props.C36.
Import ListNotations.
Local Open Scope Z_scope.

(** A PMX vertex has the first four weights of its source vertex, in the order of the bones. *)
Theorem C65_weights_partial : forall (T : Type) (N : Num T) (scale centi : T) (d : document T) bones sets p o v uv id,
  to_mmd scale centi d bones sets = Some p -> exported_as d sets p (o, v, uv) id ->
  has_weights p id (firstn 4 (weights_of centi o bones v)).
Proof. exact (fun T N => @to_mmd_weights T N). Qed.
Print Assumptions C65_weights_partial.

(** A triangle whose first vertex has the weights 10, 20, 30, 40 and 50 of five bones. *)
Definition skinned_doc : document Z :=
  mkDocument [mat "skin"] [obj "body" true [mkV3 0 0 5; mkV3 4 0 5; mkV3 4 4 5] [mkFace 0 [0; 1; 2] 0 [] []]].
Definition mbone (i w : Z) : bone Z := mkBone i "b" 0 (mkV3 0 0 0) [(1, [(1, w); (2, 7)])].
Definition five_bones : list (bone Z) := [mbone 1 10; mbone 2 20; mbone 3 30; mbone 4 40; mbone 5 50].
Definition skinned_pmx := Eval vm_compute in
  match to_mmd 2 1 skinned_doc five_bones [] with Some p => p | None => mkPModel [] [] [] [] 0 end.
Definition body : object Z := nth 0 (fix_ids 0 (dObjects skinned_doc)) (obj "" true [] []).
Lemma skinned_exported : exported_as skinned_doc [] skinned_pmx (body, 0, mkV2 0 0) 0.
Proof.
  exists [[[0; 1; 2]]], 0%nat, [[0; 1; 2]], [(body, 0, mkV2 0 0); (body, 1, mkV2 0 0); (body, 2, mkV2 0 0)], [0; 1; 2], 0%nat.
  repeat (split; [vm_compute; reflexivity|]). exists 0%nat. vm_compute. auto.
Qed.
Example C65_example : weights_of 1 body five_bones 0 = [(0, 10); (1, 20); (2, 30); (3, 40); (4, 50)] /\
  has_weights skinned_pmx 0 [(0, 10); (1, 20); (2, 30); (3, 40)].
Proof. split; [vm_compute; reflexivity|]. exists (nth 0 (pVerts skinned_pmx) (mkPV (mkV3 0 0 0) (mkV3 0 0 0) (mkV2 0 0) [] [])). vm_compute. auto. Qed.

(** The full claim: no dropped weight is larger than a kept one. *)
Definition C65_full : Prop := forall (d : document Z) bones sets p o v uv id,
  valid_faces d -> to_mmd 2 1 d bones sets = Some p -> exported_as d sets p (o, v, uv) id ->
  exists ws, has_weights p id ws /\ forall b w, In (b, w) (weights_of 1 o bones v) -> ~ In (b, w) ws -> forall b' w', In (b', w') ws -> w <= w'.
Theorem C65_strongest_refuted : ~ C65_full.
Proof.
  intros H. destruct (H skinned_doc five_bones [] skinned_pmx body 0 (mkV2 0 0) 0) as (ws & (x & E1 & E2 & E3) & Hw);
    [unfold valid_faces; repeat constructor; cbn; lia|reflexivity|exact skinned_exported|].
  vm_compute in E1. injection E1 as <-. cbn [pvBones pvWeights] in E2, E3.
  destruct ws as [|[b0 w0] [|[b1 w1] [|[b2 w2] [|[b3 w3] [|]]]]]; cbn [map fst snd] in E2, E3; try discriminate E2.
  injection E2 as <- <- <- <-. injection E3 as <- <- <- <-.
  assert (C : 50 <= 10). { apply (Hw 4 50) with (b' := 0); [vm_compute; auto 10| |left; reflexivity]. cbn. intros [E|[E|[E|[E|[]]]]]; discriminate E. }
  lia.
Qed.
Print Assumptions C65_strongest_refuted.
