(** C36: MQO to PMX writes consistent material face ranges. *)
From Coq Require Import String List ZArith Bool Lia.
From Verif.Model Require Import Num Vec Matrix Mqo MqoDoc Mmd2Mqo Mqo2Mmd.
From Verif Require Import Spec.Mqo2MmdSpec Proofs.Mqo2MmdTop.
Import ListNotations.
Local Open Scope Z_scope.

(** The PMX materials are the MQO materials.  Their counts split the PMX faces into ranges; the
    range of material [k] holds the triangles of the faces that use it, corner by corner. *)
Theorem C36_faces : forall (T : Type) (N : Num T) (scale centi : T) (d : document T) bones sets p,
  to_mmd scale centi d bones sets = Some p ->
  map pmName (pMats p) = map (@mtName T) (dMaterials d) /\
  exists slices, pFaces p = concat slices /\ map pmCount (pMats p) = map (fun s => 3 * Z.of_nat (length s)) slices /\
    Forall2 (fun k s => Forall2 (Forall2 (fun c id => at_corner scale p id c)) (material_triangles sets (dObjects d) (Z.of_nat k)) s)
            (seq 0 (length (dMaterials d))) slices.
Proof. exact (fun T N => @to_mmd_faces T N). Qed.
Print Assumptions C36_faces.

Theorem C36_counts : forall (T : Type) (N : Num T) (scale centi : T) (d : document T) bones sets p,
  to_mmd scale centi d bones sets = Some p -> fold_right Z.add 0 (map pmCount (pMats p)) = 3 * Z.of_nat (length (pFaces p)).
Proof. exact (fun T N => @to_mmd_total_count T N). Qed.
Print Assumptions C36_counts.

(** Documents with valid indices are converted. *)
Theorem C36_total : forall (T : Type) (N : Num T) (scale centi : T) (d : document T) bones sets,
  valid_faces d -> to_mmd scale centi d bones sets <> None.
Proof. exact (fun T N => @to_mmd_total T N). Qed.
Print Assumptions C36_total.

(** A quad and a triangle in different materials, a hidden object, a morph target, a face with two
    corners; the two faces share vertex 1 with different texture coordinates. *)
Definition obj (name : string) (vis : bool) (vs : list (vec3 Z)) (fs : list (face Z)) : object Z :=
  mkObj 0 name vs fs vis false 0 false 1 60 0 0 0 0 None None None None [] None.
Definition mat (n : string) : material Z := mkMat n 0 (mkV4 1 1 1 1) 0 0 0 0 0 "" "" "" None false 0 None.
Definition ex_faces : list (face Z) :=
  [mkFace 0 [0; 1; 2; 3] 1 [mkV2 0 0; mkV2 1 0; mkV2 1 1; mkV2 0 1] []; mkFace 0 [0; 1] 0 [] []; mkFace 0 [1; 4; 2] 0 [] []].
Definition ex_verts : list (vec3 Z) := [mkV3 0 0 5; mkV3 4 0 5; mkV3 4 4 5; mkV3 0 4 5; mkV3 8 2 5].
Definition ex_doc : document Z :=
  mkDocument [mat "skin"; mat "hair"; mat "none"]
    [obj "hidden" false ex_verts ex_faces; obj "body" true ex_verts ex_faces;
     obj "smile" true [mkV3 0 0 5; mkV3 4 0 5; mkV3 5 6 9; mkV3 0 4 5; mkV3 8 2 5] ex_faces].
Definition ex_sets : list target_list := [mkTL "body" ["smile"%string]].
Example C36_example : valid_faces ex_doc.
Proof. unfold valid_faces. repeat constructor; cbn; lia. Qed.
Example C36_example_result :
  option_map (fun p => (map (fun m => (pmName m, pmCount m)) (pMats p), pFaces p, map (fun x => (pvPos x, pvUV x)) (pVerts p)))
    (to_mmd 2 1 ex_doc [] ex_sets) =
  Some ([("skin"%string, 3); ("hair"%string, 6); ("none"%string, 0)], [[0; 1; 2]; [3; 4; 5]; [3; 5; 6]],
        [(mkV3 8 0 (-10), mkV2 0 0); (mkV3 16 4 (-10), mkV2 0 0); (mkV3 8 8 (-10), mkV2 0 0);
         (mkV3 0 0 (-10), mkV2 0 0); (mkV3 8 0 (-10), mkV2 1 0); (mkV3 8 8 (-10), mkV2 1 1); (mkV3 0 8 (-10), mkV2 0 1)]).
Proof. vm_compute. reflexivity. Qed.
