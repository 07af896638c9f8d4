(** C50: Unity built-in meshes are closed surfaces. *)
From Coq Require Import List ZArith Bool Lia.
From Verif.Model Require Import Num Vec Unity.
From Verif.Spec Require Import UnitySpec.
From Verif.Proofs Require Import UnityMesh.
Import ListNotations.
Local Open Scope list_scope.
Local Open Scope Z_scope.

(** Sphere: closed and consistently oriented, only valid and different vertices, all vertices used, Euler characteristic 2. *)
Theorem C50_sphere : forall sh sv, 3 <= sh -> 2 <= sv ->
  closed (snd (sphere sh sv)) /\ proper (fst (sphere sh sv)) (snd (sphere sh sv)) /\ euler_sphere (fst (sphere sh sv)) (snd (sphere sh sv)).
Proof. intros sh sv H H'. split; [apply sphere_closed; assumption|]. split; [apply sphere_proper; assumption|apply sphere_euler; assumption]. Qed.
Print Assumptions C50_sphere.

Theorem C50_cylinder : forall s, 3 <= s ->
  closed (snd (cylinder s)) /\ proper (fst (cylinder s)) (snd (cylinder s)) /\ euler_sphere (fst (cylinder s)) (snd (cylinder s)).
Proof. intros s H. split; [apply cylinder_closed; assumption|]. split; [apply cylinder_proper; assumption|apply cylinder_euler; assumption]. Qed.
Print Assumptions C50_cylinder.

Theorem C50_capsule : forall s, 3 <= s ->
  closed (snd (capsule s)) /\ proper (fst (capsule s)) (snd (capsule s)) /\ euler_sphere (fst (capsule s)) (snd (capsule s)).
Proof. exact capsule_closed. Qed.
Print Assumptions C50_capsule.

Theorem C50_cube : closed cube_faces /\ proper 8 cube_faces /\ euler_sphere 8 cube_faces.
Proof.
  split; [|split]; [split| split|reflexivity].
  - vm_compute. repeat constructor; cbn [In]; intuition congruence.
  - intros a b H. assert (existsb (fun e => (fst e =? b) && (snd e =? a)) (edges cube_faces) = true) as X.
    { assert (A : forallb (fun d => existsb (fun e => (fst e =? snd d) && (snd e =? fst d)) (edges cube_faces)) (edges cube_faces) = true) by (vm_compute; reflexivity).
      rewrite forallb_forall in A. exact (A (a, b) H). }
    apply existsb_exists in X as ([c d] & Hi & E). apply andb_true_iff in E as (E & E'). apply Z.eqb_eq in E, E'. cbn in E, E'. subst. exact Hi.
  - repeat constructor; cbn [In]; try lia.
  - intros v H. assert (exists k, v = Z.of_nat k /\ (k < 8)%nat) as (k & -> & L) by (exists (Z.to_nat v); lia).
    do 8 (destruct k as [|k]; [first [exists [0; 1; 2; 3]; cbn; tauto|exists [7; 6; 5; 4]; cbn; tauto]|]). lia.
Qed.
Print Assumptions C50_cube.

(** Every face has as many texture coordinates as vertices. *)
Theorem C50_uvs : forall (T : Type) (fr : Z -> Z -> T) one_minus s sh sv,
  same_shape cube_faces (cube_uvs fr) /\ same_shape (snd (sphere sh sv)) (sphere_uvs fr sh sv 0 sv) /\
  same_shape (snd (cylinder s)) (cylinder_uvs fr one_minus s) /\ same_shape (snd (capsule s)) (capsule_uvs fr one_minus s).
Proof. intros T fr om s sh sv. exact (uvs_shape fr om s sh sv). Qed.
Print Assumptions C50_uvs.

(** The bounds are needed: two segments, or one row, do not enclose a volume. *)
Theorem C50_thin : ~ closed (snd (sphere 2 4)) /\ ~ closed (snd (cylinder 2)) /\ ~ proper (fst (sphere 3 1)) (snd (sphere 3 1)).
Proof.
  split; [|split].
  - intros (N & _). revert N. vm_compute. intros N.
    repeat match goal with H : NoDup (_ :: _) |- _ => inversion H; subst; clear H end. cbn [In] in *. intuition congruence.
  - intros (N & _). revert N. vm_compute. intros N.
    repeat match goal with H : NoDup (_ :: _) |- _ => inversion H; subst; clear H end. cbn [In] in *. intuition congruence.
  - intros (F & _). inversion F as [|? ? (_ & _ & V) _]; subst. inversion V as [|? ? _ V1]; subst. inversion V1 as [|? ? _ V2]; subst. inversion V2 as [|? ? L _]; subst. vm_compute in L. destruct L as (_ & L). discriminate.
Qed.
Print Assumptions C50_thin.

(** Small tessellations written out; the loader uses 32 segments and 16 rows (unity_builtin.go 36-41). *)
Example C50_example : fst (sphere 3 2) = 5 /\ snd (sphere 3 2) = [[0; 1; 2]; [0; 2; 3]; [0; 3; 1]; [1; 4; 2]; [2; 4; 3]; [3; 4; 1]] /\
  fst (sphere 32 16) = 482 /\ fst (cylinder 32) = 64 /\ fst (capsule 32) = 258 /\ snd (cylinder 3) = [[0; 1; 3; 2]; [2; 3; 5; 4]; [4; 5; 1; 0]; [0; 2; 4]; [5; 3; 1]].
Proof. vm_compute. repeat split. Qed.
