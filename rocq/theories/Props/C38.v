(** C38: a PMX file saved from an MQO document can be loaded and converted back. *)
From Coq Require Import String List ZArith Bool Lia Permutation.
From Verif.Model Require Import Num Vec Matrix Codec Mqo MqoDoc Mmd2Mqo Normals Mqo2Mmd.
From Verif.Model Require Pmx.
From Verif Require Import Spec.PmxSpec Spec.MmdConvSpec Spec.Mqo2MmdSpec Proofs.Mmd2MqoProofs Proofs.Mqo2MmdTop Props.C36.
Import ListNotations.
Local Open Scope Z_scope.

(** Without saving, the PMX document is always proper and is converted back. *)
Theorem C38_direct : forall (T : Type) (N : Num T) (scale centi hundred facet : T) (shuffle : vmap -> vmap),
  (forall m, Permutation (shuffle m) m) ->
  forall (d : document T) bones sets p, to_mmd scale centi d bones sets = Some p ->
  proper p /\ convert hundred facet shuffle p <> None.
Proof.
  intros T N scale centi hundred facet shuffle Hs d bones sets p E. pose proof (to_mmd_proper scale centi d bones sets p E) as P.
  split; [exact P|]. exact (convert_total hundred facet shuffle Hs p P).
Qed.
Print Assumptions C38_direct.

(** After saving and loading ([reload] changes the skinning as C21 says), if no vertex has no weight
    or exactly three. *)
Theorem C38_saved_partial : forall (T : Type) (N : Num T) (scale centi hundred facet : T) (shuffle : vmap -> vmap) fsub1 bits value,
  (forall m, Permutation (shuffle m) m) ->
  forall (d : document T) bones sets p, to_mmd scale centi d bones sets = Some p ->
  Forall (fun x => let n := length (pvWeights x) in n <> 0%nat /\ n <> 3%nat) (pVerts p) ->
  convert hundred facet shuffle (reload fsub1 bits value p) <> None.
Proof.
  intros T N scale centi hundred facet shuffle fsub1 bits value Hs d bones sets p E H.
  apply (convert_total hundred facet shuffle Hs). exact (reload_proper scale fsub1 bits value p (to_mmd_proper scale centi d bones sets p E) H).
Qed.
Print Assumptions C38_saved_partial.

(** The result as a PMX document, and a loaded document as input of the other converter; the floats
    are their bit patterns, so only non-negative numbers are used below. *)
Definition to_file (p : pmodel Z) : Pmx.document :=
  Pmx.mkDoc Pmx.new_header [] [] [] []
    (map (fun x => Pmx.mkVertex (pvPos x) (pvNormal x) (pvUV x) [] Pmx.f32_one (pvBones x) (pvWeights x)) (pVerts p))
    (map (fun f => Pmx.mkFace (nth 0 f 0) (nth 1 f 0) (nth 2 f 0)) (pFaces p)) []
    (map (fun m => Pmx.mkMaterial [] [] (mkV4 0 0 0 0) (mkV3 0 0 0) 0 (mkV3 0 0 0) 0 (mkV4 0 0 0 0) 0 (-1) 0 0 0 (-1) [] (pmCount m)) (pMats p))
    [] [] [] [].
Definition of_file (f : Pmx.document) (bones : nat) : pmodel Z :=
  mkPModel (map (fun v => mkPV (Pmx.v_pos v) (Pmx.v_normal v) (Pmx.v_uv v) (Pmx.v_bones v) (Pmx.v_weights v)) (Pmx.d_vertexes f))
           (map (fun f => [Pmx.f_0 f; Pmx.f_1 f; Pmx.f_2 f]) (Pmx.d_faces f))
           (map (fun m => mkPMat "" (Pmx.m_count m)) (Pmx.d_materials f)) [] bones.
Definition C38_full : Prop := forall (d : document Z) bones p bs f rest utf16 fsub1,
  valid_faces d -> to_mmd 1 1 d bones [] = Some p -> Pmx.write_pmx (to_file p) = Some bs ->
  Pmx.parse utf16 fsub1 bs = ROk f rest -> convert 100 60 (fun m => m) (of_file f (length bones)) <> None.
(** A triangle without bones. *)
Definition bare_doc : document Z :=
  mkDocument [mat "skin"] [obj "body" true [mkV3 0 0 0; mkV3 0 4 0; mkV3 4 0 0] [mkFace 0 [0; 1; 2] 0 [] []]].
Definition bare_pmx := Eval vm_compute in match to_mmd 1 1 bare_doc [] [] with Some p => p | None => mkPModel [] [] [] [] 0 end.
Definition bare_bytes := Eval vm_compute in match Pmx.write_pmx (to_file bare_pmx) with Some b => b | None => [] end.
Definition bare_file := Eval vm_compute in
  match Pmx.parse (fun b => b) (fun z => z) bare_bytes with ROk f _ => f | _ => Pmx.new_document end.
Theorem C38_unskinned_refuted : ~ C38_full.
Proof.
  intros H. apply (H bare_doc [] bare_pmx bare_bytes bare_file [0; 0; 0; 0] (fun b => b) (fun z => z)).
  - unfold valid_faces. repeat constructor; cbn; lia.
  - vm_compute. reflexivity.
  - vm_compute. reflexivity.
  - vm_compute. reflexivity.
  - vm_compute. reflexivity.
Qed.
Print Assumptions C38_unskinned_refuted.
Example C38_loaded : map Pmx.v_bones (Pmx.d_vertexes bare_file) = [[-1]; [-1]; [-1]].
Proof. vm_compute. reflexivity. Qed.
Example C38_example : to_mmd 2 1 ex_doc [] ex_sets <> None.
Proof. vm_compute. discriminate. Qed.
