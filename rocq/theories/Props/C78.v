(** C78: Unity built-in meshes have the stated shape, face outwards, and carry a continuous texture. *)
From Coq Require Import List ZArith QArith Bool Lia Reals Lra.
From Verif.Model Require Import Num NumR Vec Unity UnityShape.
From Verif.Spec Require Import UnitySpec ShapeSpec.
From Verif.Proofs Require Import UnityMesh UnityShapeProofs.
Import ListNotations.
Local Open Scope list_scope.
Local Open Scope R_scope.

(** As many vertices as the faces refer to ([C50]), all on the surface, and all faces turned outwards. *)
Theorem C78_sphere : forall sh sv, (3 <= sh)%Z -> (2 <= sv)%Z ->
  Z.of_nat (length (sphere_verts sh sv 0 sv)) = fst (sphere sh sv) /\ (forall v, In v (sphere_verts sh sv 0 sv) -> norm2 v = / 4) /\
  Forall (faces_out (sphere_verts sh sv 0 sv)) (snd (sphere sh sv)).
Proof. intros sh sv H H'. split; [apply verts_length; assumption|]. split; [apply sphere_round|apply sphere_out; assumption]. Qed.
Print Assumptions C78_sphere.
Theorem C78_cylinder : forall s, (3 <= s)%Z ->
  Z.of_nat (length (cylinder_verts s)) = fst (cylinder s) /\ (forall v, In v (cylinder_verts s) -> off_axis2 v = / 4 /\ (vy v = 1 \/ vy v = -1)) /\
  Forall (faces_out (cylinder_verts s)) (snd (cylinder s)).
Proof. intros s H. split; [apply cylinder_verts_length|]. split; [apply cylinder_round|apply cylinder_out; assumption]. Qed.
Print Assumptions C78_cylinder.
(** A capsule of height 2 and radius 1/2: half spheres about (0, 1/2, 0) and (0, -1/2, 0). *)
Theorem C78_capsule : forall s, (3 <= s)%Z ->
  Z.of_nat (length (capsule_verts s)) = fst (capsule s) /\
  (forall v, In v (capsule_verts s) -> 0 <= vy v - / 2 /\ norm2 (mkV3 (vx v) (vy v - / 2) (vz v)) = / 4 \/ vy v + / 2 <= 0 /\ norm2 (mkV3 (vx v) (vy v + / 2) (vz v)) = / 4) /\
  Forall (faces_out (capsule_verts s)) (snd (capsule s)).
Proof. intros s H. split; [apply capsule_verts_length; assumption|]. split; [apply capsule_round|apply capsule_out; assumption]. Qed.
Print Assumptions C78_capsule.
Theorem C78_cube : Forall (faces_out cube_verts) cube_faces.
Proof. exact cube_out. Qed.
Print Assumptions C78_cube.

(** The texture of a sphere is a map of its angles: the vertex in row [i], place [j] has the coordinates (j / sh, i / sv), on all its faces; only the
    seam ([j = 0] and [j = sh]) and the poles have several. *)
Theorem C78_sphere_texture : forall (T : Type) (fr : Z -> Z -> T) sh sv, (3 <= sh)%Z -> (2 <= sv)%Z ->
  forall n f u, nth_error (snd (sphere sh sv)) n = Some f -> nth_error (sphere_uvs fr sh sv 0 sv) n = Some u ->
  forall m v w, nth_error f m = Some v -> nth_error u m = Some w ->
  exists i j, (0 <= i <= sv /\ 0 <= j <= sh /\
    v = (if i =? 0 then 0 else if i =? sv then (sv - 1) * sh + 1 else (i - 1) * sh + j mod sh + 1))%Z /\ w = mkV2 (fr j sh) (fr i sv).
Proof.
  intros T fr sh sv H H' n f u Ef Eu m v w Ev Ew. destruct (sphere_texture fr sh sv H H' n f u Ef Eu m v w Ev Ew) as (i & j & A & B & C & D). exists i, j. split; [|exact D]. split; [exact A|]. split; [exact B|exact C].
Qed.
Print Assumptions C78_sphere_texture.

(** Refuted for the capsule: where the upper half sphere meets the side, one vertex (the second of that ring, so not on the seam) is at (1/8, 1/2) of the
    texture for the half sphere and at (7/8, 0) for the side, which is mirrored and starts again from the top. *)
Theorem C78_capsule_texture_refuted : exists v f g m m' : Z, exists (w w' : vec2 Q) fa ga u u',
  (let at_ {A} (l : list A) (k : Z) := nth_error l (Z.to_nat k) in
  at_ (snd (capsule 8)) f = Some fa /\ at_ (snd (capsule 8)) g = Some ga /\ at_ fa m = Some v /\ at_ ga m' = Some v /\ v = 26%Z /\
  at_ (capsule_uvs (fun a b => Qred (inject_Z a / inject_Z b)) (fun x => Qred (1 - x)) 8) f = Some u /\ at_ (capsule_uvs (fun a b => Qred (inject_Z a / inject_Z b)) (fun x => Qred (1 - x)) 8) g = Some u' /\
  at_ u m = Some w /\ at_ u' m' = Some w' /\ w = mkV2 (1#8) (1#2) /\ w' = mkV2 (7#8) 0)%Q.
Proof. exists 26%Z, 25%Z, 33%Z, 1%Z, 0%Z. do 6 eexists. vm_compute. repeat (split; [reflexivity|]). reflexivity. Qed.
Print Assumptions C78_capsule_texture_refuted.

(** The four points of the flat faces, with their fronts to the sky and, mirrored, to the camera. *)
Example C78_example_plane : exists p q r, point plane_verts 0 = Some p /\ point plane_verts 1 = Some q /\ point plane_verts 2 = Some r /\
  (vx q - vx p) * (vz r - vz p) - (vz q - vz p) * (vx r - vx p) = 100.
Proof. eexists _, _, _. unfold point. cbn. do 3 (split; [reflexivity|]). cbn [vx vz]. ring. Qed.
Example C78_example : faces_out (sphere_verts 32 16 0 16) [0; 1; 2]%Z.
Proof.
  destruct (C78_sphere 32 16 ltac:(lia) ltac:(lia)) as (_ & _ & H). rewrite Forall_forall in H. apply H. vm_compute. left. reflexivity.
Qed.
