(** C49: Unity transforms are converted to the right-handed system. *)
From Coq Require Import List ZArith QArith Lia Reals Lra.
From Verif.Model Require Import Num NumR Vec Matrix Unity.
From Verif.Spec Require Import GeomSpec UnitySpec.
From Verif.Proofs Require Import MatrixLemmas UnityProofs.
Import ListNotations.
Local Open Scope list_scope.
Local Open Scope R_scope.

(** The matrix takes the mirror image of a local point to the mirror image of where Unity puts that point; any position, rotation and scale. *)
Theorem C49_local : forall (t : transform R) v, mat_apply (get_matrix t) (mirror v) = mirror (unity_local t v).
Proof. exact get_matrix_mirror. Qed.
Print Assumptions C49_local.

(** So it is Unity's own matrix, conjugated by the mirror. *)
Theorem C49_conjugate : forall (t : transform R), get_matrix t =
  mat_mul (mat_mul (mat_scale 1 1 (-1))
    (mat_mul (mat_mul (mat_translate (vx (tPos t)) (vy (tPos t)) (vz (tPos t))) (mat_rot (tRot t))) (mat_scale (vx (tScale t)) (vy (tScale t)) (vz (tScale t)))))
    (mat_scale 1 1 (-1)).
Proof. exact get_matrix_conj. Qed.
Print Assumptions C49_conjugate.

(** The world matrix takes the mirror image of a local point to the mirror image of its place in Unity's world, through all fathers. *)
Theorem C49_world : forall (ts : list (transform R)) fuel i m, world_matrix fuel ts i = Some m ->
  forall v w, unity_world ts i v w -> mat_apply m (mirror v) = mirror w.
Proof.
  intros ts fuel i m H v w W. destruct (world_mirror ts fuel i m H v) as (w' & W' & E). rewrite (world_unique ts i v w w' W W'). exact E.
Qed.
Print Assumptions C49_world.
(** The same read from left to right: there is such a place, and only one. *)
Theorem C49_world_place : forall (ts : list (transform R)) fuel i m, world_matrix fuel ts i = Some m ->
  forall v, exists w, unity_world ts i v w /\ (forall w', unity_world ts i v w' -> w' = w).
Proof.
  intros ts fuel i m H v. destruct (world_mirror ts fuel i m H v) as (w & W & _). exists w. split; [exact W|]. intros w' W'. exact (world_unique ts i v w' w W' W).
Qed.
Print Assumptions C49_world_place.

(** The recursion ends if the fathers form a forest, however deep. *)
Theorem C49_total : forall (ts : list (transform R)) (rank : nat -> nat),
  (forall i t p, nth_error ts i = Some t -> tFather t = Some p -> (p < length ts)%nat /\ (rank p < rank i)%nat) ->
  forall i, (i < length ts)%nat -> exists m, world_matrix (S (rank i)) ts i = Some m.
Proof. exact world_total. Qed.
Print Assumptions C49_total.
(** It does not end when a transform is its own ancestor: no amount of fuel is enough. *)
Theorem C49_cycle : forall (ts : list (transform R)) i t, nth_error ts i = Some t -> tFather t = Some i -> forall fuel, world_matrix fuel ts i = None.
Proof. intros ts i t En Ef. induction fuel as [|f IH]; [reflexivity|]. cbn [world_matrix]. rewrite En, Ef, IH. reflexivity. Qed.

(** A child one step in front (z) of a father at (0,1,0) turned by 90 degrees about y and twice as large. *)
Definition father : transform Q := mkTr (mkV3 0 1 0)%Q (mkV4 0 (3#5) 0 (4#5))%Q (mkV3 2 2 2)%Q None.
Definition child : transform Q := mkTr (mkV3 0 0 1)%Q (mkV4 0 0 0 1)%Q (mkV3 1 (-1) 1)%Q (Some 0%nat).
Example C49_example : option_map (fun m => let p := mat_apply m (mkV3 0 1 0)%Q in map Qred [vx p; vy p; vz p]) (world_matrix 2 [father; child] 1) = Some [48#25; -1; -14#25]%Q.
Proof. vm_compute. reflexivity. Qed.
(** The hypotheses of [C49_world] and [C49_total] hold of a chain. *)
Definition chain : list (transform R) := [mkTr (mkV3 0 1 0) (mkV4 0 0 0 1) (mkV3 2 2 2) None; mkTr (mkV3 0 0 1) (mkV4 0 0 0 1) (mkV3 1 1 1) (Some 0%nat)].
Example C49_example_place : unity_world chain 1 (mkV3 0 0 0) (mkV3 0 1 2).
Proof.
  apply (world_child chain 1 (mkTr (mkV3 0 0 1) (mkV4 0 0 0 1) (mkV3 1 1 1) (Some 0%nat)) 0); [reflexivity|reflexivity|].
  replace (unity_local _ _) with (mkV3 0 0 1) by (unfold unity_local, unity_turn, v3add, v3scale, v3cross; cbn [tPos tRot tScale]; mproj; rnum; comps; ring).
  replace (mkV3 0 1 2) with (unity_local (mkTr (mkV3 0 1 0) (mkV4 0 0 0 1) (mkV3 2 2 2) None) (mkV3 0 0 1)) by
    (unfold unity_local, unity_turn, v3add, v3scale, v3cross; cbn [tPos tRot tScale]; mproj; rnum; comps; ring).
  apply world_root; reflexivity.
Qed.
Lemma chain_forest : forall i t p, nth_error chain i = Some t -> tFather t = Some p -> (p < length chain)%nat /\ ((fun k => k) p < (fun k => k) i)%nat.
Proof.
  intros [|[|[|i]]] t p E F; cbn [nth_error chain] in E; try discriminate; injection E as <-; cbn [tFather] in F; try discriminate. injection F as <-. cbn; lia.
Qed.
Example C49_example_total : exists m, world_matrix 2 chain 1 = Some m.
Proof. exact (C49_total chain (fun k => k) chain_forest 1%nat (le_n 2)). Qed.
