(** C01: triangulating a polygon neither loses nor invents surface.
    [N : Num T] is arbitrary, so the statements hold for every behaviour of the
    scalar operations, in particular IEEE single precision. *)
From Coq Require Import List Arith QArith.
From Verif.Model Require Import Num Vec Triangulate.
From Verif.Spec Require Import Surface.
From Verif.Proofs Require Import SurfaceLemmas TriangulateProofs.
Import ListNotations.
Open Scope nat_scope.

(** Terminates without panic, n-2 triangles, valid distinct corners, exact dissection. *)
Theorem C01_triangulate_dissects (T : Type) (N : Num T) (poly : list (vec3 T)) :
  3 <= length poly ->
  exists ts, triangulate poly = Some ts /\
    length ts + 2 = length poly /\
    Forall (fun t => tri_distinct t /\ tri_corners_in (seq 0 (length poly)) t) ts /\
    dissects (seq 0 (length poly)) ts.
Proof. exact (triangulate_ok poly). Qed.
Print Assumptions C01_triangulate_dissects.

(** Boundary cancellation, in terms of counted oriented edges. *)
Theorem C01_triangulate_boundary (T : Type) (N : Num T) (poly : list (vec3 T)) ts :
  3 <= length poly -> triangulate poly = Some ts ->
  same_boundary (flat_map tri_edges ts) (cycle_edges (seq 0 (length poly))).
Proof. exact (triangulate_boundary poly ts). Qed.
Print Assumptions C01_triangulate_boundary.

Theorem C01_triangulate_small (T : Type) (N : Num T) (poly : list (vec3 T)) :
  length poly < 3 -> triangulate poly = Some [].
Proof. exact (triangulate_small poly). Qed.
Print Assumptions C01_triangulate_small.

(** A concave hexagon and a self-intersecting quad (which takes the fan fallback or ear path). *)
Definition P (x y : Z) : vec3 Q := mkV3 (inject_Z x) (inject_Z y) 0%Q.
Example C01_concave :
  triangulate [P 0 0; P 4 0; P 4 4; P 2 1; P 0 4; P (-1) 2]
  = Some [(4, 5, 0); (3, 4, 0); (1, 2, 3); (0, 1, 3)].
Proof. vm_compute. reflexivity. Qed.
Example C01_bowtie :
  triangulate [P 0 0; P 4 4; P 4 0; P 0 4] = Some [(2, 3, 0); (1, 2, 0)].
Proof. vm_compute. reflexivity. Qed.
