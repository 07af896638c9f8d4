(** Unity transforms. *)
From Coq Require Import List ZArith Reals Lia Lra.
From Verif.Model Require Import Num NumR Vec Matrix Unity.
From Verif.Spec Require Import GeomSpec UnitySpec.
From Verif.Proofs Require Import MatrixLemmas.
Import ListNotations.
Local Open Scope list_scope.
Local Open Scope R_scope.

Lemma get_matrix_affine (t : transform R) : affine (get_matrix t).
Proof. unfold get_matrix. apply affine_mul; [apply affine_mul; [apply mat_translate_affine|apply mat_rot_affine]|apply mat_scale_affine]. Qed.
Theorem get_matrix_mirror (t : transform R) v : mat_apply (get_matrix t) (mirror v) = mirror (unity_local t v).
Proof.
  unfold get_matrix. rewrite !mat_apply_mul by (first [apply mat_scale_affine|apply mat_rot_affine|apply affine_mul; [apply mat_rot_affine|apply mat_scale_affine]]).
  destruct t as [[px py pz] [x y z w] [sx sy sz] f], v as [a b c]. unfold mirror, unity_local, unity_turn, mat_apply, mat_translate, mat_rot, mat_scale, v3add, v3scale, v3cross.
  cbn [tPos tRot tScale]. mproj. rnum. comps; ring.
Qed.
(** As matrices: the Z mirror on both sides of Unity's matrix. *)
Definition unity_matrix (t : transform R) : mat4 R :=
  mat_mul (mat_mul (mat_translate (vx (tPos t)) (vy (tPos t)) (vz (tPos t))) (mat_rot (tRot t))) (mat_scale (vx (tScale t)) (vy (tScale t)) (vz (tScale t))).
Theorem get_matrix_conj (t : transform R) : get_matrix t = mat_mul (mat_mul (mat_scale 1 1 (-1)) (unity_matrix t)) (mat_scale 1 1 (-1)).
Proof.
  unfold unity_matrix. set (S := mat_scale 1 1 (-1)). set (x := vx (tPos t)). set (y := vy (tPos t)). set (z := vz (tPos t)).
  assert (A : mat_mul S (mat_translate x y z) = mat_mul (mat_translate x y (- z)) S) by (unfold S, mat_mul, mat_translate, mat_scale; mproj; rnum; comps; ring).
  assert (B : mat_mul S (mat_rot (tRot t)) = mat_mul (mat_rot (mkV4 (- qx (tRot t)) (- qy (tRot t)) (qz (tRot t)) (qw (tRot t)))) S).
  { destruct (tRot t) as [a b c d]. unfold S, mat_mul, mat_rot, mat_scale. mproj. rnum. comps; ring. }
  assert (C : mat_mul S (mat_mul (mat_scale (vx (tScale t)) (vy (tScale t)) (vz (tScale t))) S) = mat_scale (vx (tScale t)) (vy (tScale t)) (vz (tScale t))).
  { destruct (tScale t) as [a b c]. unfold S, mat_mul, mat_scale. mproj. rnum. comps; ring. }
  rewrite !mat_mul_assoc, A. rewrite <- (mat_mul_assoc _ S (mat_rot (tRot t))), B. rewrite <- !mat_mul_assoc, C. unfold get_matrix. rnum. fold x y z. rewrite <- mat_mul_assoc. reflexivity.
Qed.
Lemma world_affine ts : forall fuel i m, world_matrix fuel ts i = Some m -> affine m.
Proof.
  induction fuel as [|f IH]; intros i m H; cbn [world_matrix] in H; [discriminate|]. destruct (nth_error ts i) as [t|]; [|discriminate]. destruct (tFather t) as [p|].
  - destruct (world_matrix f ts p) as [mp|] eqn:E; [|discriminate]. injection H as <-. apply affine_mul; [eapply IH; exact E|apply get_matrix_affine].
  - injection H as <-. apply get_matrix_affine.
Qed.
Theorem world_mirror ts : forall fuel i m, world_matrix fuel ts i = Some m -> forall v, exists w, unity_world ts i v w /\ mat_apply m (mirror v) = mirror w.
Proof.
  induction fuel as [|f IH]; intros i m H v; cbn [world_matrix] in H; [discriminate|]. destruct (nth_error ts i) as [t|] eqn:En; [|discriminate]. destruct (tFather t) as [p|] eqn:Ef.
  - destruct (world_matrix f ts p) as [mp|] eqn:E; [|discriminate]. injection H as <-. destruct (IH p mp E (unity_local t v)) as (w & Hw & Em). exists w. split; [eapply world_child; eassumption|].
    rewrite mat_apply_mul by apply get_matrix_affine. rewrite get_matrix_mirror. exact Em.
  - injection H as <-. exists (unity_local t v). split; [eapply world_root; eassumption|apply get_matrix_mirror].
Qed.
Lemma world_unique ts i v w w' : unity_world ts i v w -> unity_world ts i v w' -> w = w'.
Proof.
  intros H. revert w'. induction H as [i t v Hn Hf|i t p v w Hn Hf H IH]; intros w' H'; inversion H' as [? t' ? Hn' Hf'|? t' p' ? ? Hn' Hf' H'']; subst; rewrite Hn in Hn'; injection Hn' as <-; rewrite Hf in Hf'; try discriminate; [reflexivity|].
  injection Hf' as <-. apply IH, H''.
Qed.
(** If fathers exist and nothing is its own ancestor, the world matrix is found. *)
Theorem world_total (ts : list (transform R)) (rank : nat -> nat) : (forall i t p, nth_error ts i = Some t -> tFather t = Some p -> (p < length ts)%nat /\ (rank p < rank i)%nat) ->
  forall i, (i < length ts)%nat -> exists m, world_matrix (S (rank i)) ts i = Some m.
Proof.
  intros HR. assert (G : forall fuel i, (rank i < fuel)%nat -> (i < length ts)%nat -> exists m, world_matrix fuel ts i = Some m).
  { induction fuel as [|f IH]; intros i L Li; [lia|]. cbn [world_matrix]. destruct (nth_error ts i) as [t|] eqn:En; [|apply nth_error_None in En; lia]. destruct (tFather t) as [p|] eqn:Ef; [|eauto].
    destruct (HR i t p En Ef) as (Lp & Lr). destruct (IH p ltac:(lia) Lp) as (m & ->). eauto. }
  intros i Li. apply G; lia.
Qed.
